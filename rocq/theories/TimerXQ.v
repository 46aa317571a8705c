(** Order of the flushed timer statistics in exact arithmetic (C15). *)
From Verif Require Import Base Num NumFacts Env Stats Glob Metrics Gen Processor TimerFacts XQFacts.
From Coq Require Import QArith Qcanon Qround Lqa.
Open Scope Z_scope.

Lemma sorted_nth {A} (R : A -> A -> Prop) (l : list A) : (forall x, R x x) -> StronglySorted R l ->
  forall i j x y, (i <= j)%nat -> l !! i = Some x -> l !! j = Some y -> R x y.
Proof.
  intros Hr. induction 1 as [|z l Hs IH Hz]; intros i j x y Hij Hx Hy; [discriminate|].
  destruct i as [|i], j as [|j]; cbn in Hx, Hy.
  - injection Hx as ->. injection Hy as ->. apply Hr.
  - injection Hx as ->. rewrite Forall_forall in Hz. apply Hz. eapply elem_of_list_lookup_2. exact Hy.
  - lia.
  - eapply IH; [|exact Hx|exact Hy]. lia.
Qed.

Definition finite (x : xq) : Prop := exists q, x = Fin q.
Fixpoint qsum (l : list Qc) : Qc := match l with [] => 0%Qc | q :: l' => (q + qsum l')%Qc end.
Lemma xsum_fin (l : list Qc) : fold_left xadd (map Fin l) (Fin (QcZ 0)) = Fin (qsum l).
Proof.
  change (xsum (map Fin l) = Fin (qsum l)). induction l as [|q l IH]; cbn [map qsum].
  - unfold xsum, x0. cbn. f_equal; try apply QcZ_0.
  - rewrite xsum_cons, IH. reflexivity.
Qed.
Lemma qsum_between (l : list Qc) a b : Forall (fun q => a <= q /\ q <= b)%Qc l ->
  (a * QcZ (Z.of_nat (length l)) <= qsum l)%Qc /\ (qsum l <= b * QcZ (Z.of_nat (length l)))%Qc.
Proof.
  induction 1 as [|q l [H1 H2] _ [I1 I2]]; cbn [qsum length].
  - replace (QcZ (Z.of_nat 0)) with 0%Qc by (symmetry; apply QcZ_0). rewrite !Qcmult_0_r. split; apply Qcle_refl.
  - rewrite Nat2Z.inj_succ. unfold Z.succ. rewrite QcZ_add, QcZ_1.
    split.
    + replace (a * (QcZ (Z.of_nat (length l)) + 1))%Qc with (a + a * QcZ (Z.of_nat (length l)))%Qc by ring.
      apply Qcplus_le_compat; assumption.
    + replace (b * (QcZ (Z.of_nat (length l)) + 1))%Qc with (b + b * QcZ (Z.of_nat (length l)))%Qc by ring.
      apply Qcplus_le_compat; assumption.
Qed.
Lemma mean_between (l : list Qc) a b : l <> [] -> Forall (fun q => a <= q /\ q <= b)%Qc l ->
  (a <= qsum l / QcZ (Z.of_nat (length l)))%Qc /\ (qsum l / QcZ (Z.of_nat (length l)) <= b)%Qc.
Proof.
  intros Hne H. destruct (qsum_between l a b H) as [H1 H2].
  assert (Hp : (0 < QcZ (Z.of_nat (length l)))%Qc).
  { rewrite <- QcZ_0. apply QcZ_lt. destruct l; [congruence|cbn; lia]. }
  set (n := QcZ (Z.of_nat (length l))) in *. set (s := qsum l) in *.
  unfold Qcle, Qclt in *. rewrite this_div. rewrite this_mul in H1, H2.
  split; [apply Qle_shift_div_l|apply Qle_shift_div_r]; assumption.
Qed.
Lemma fin_list (l : list xq) : Forall finite l -> exists qs, l = map Fin qs.
Proof. induction 1 as [|x l [q ->] _ [qs ->]]; [exists []; reflexivity|exists (q :: qs); reflexivity]. Qed.

Lemma order_stats_ordered sq percent (ds : list xq) lower mean upper tupper count :
  Forall finite ds ->
  order_stats (NN := XQ sq) percent ds lower mean upper tupper count ->
  xltb mean lower = false /\ xltb tupper mean = false /\ xltb upper tupper = false /\
  finite lower /\ finite mean /\ finite upper /\ finite tupper.
Proof.
  intros Hf (l & t & k & Hperm & Hs & Hc & Ht & Hk & Hk1 & H0 & Hu & Htu & Hme).
  assert (mean = ndiv (Num := XQ sq) (nsum (take k l)) (nofZ (Num := XQ sq) (Z.of_nat k))) as ->.
  { rewrite Hme. clear Hme. destruct (count =? 1) eqn:E1; [|reflexivity]. assert (k = 1%nat) as -> by lia.
    destruct l as [|x l]; [discriminate|]. injection H0 as ->. symmetry. apply ndiv_one. }
  clear Hme. cbn [Num.num XQ] in *.
  assert (Hfl : Forall finite l) by (rewrite Hperm; exact Hf).
  destruct (fin_list l Hfl) as [qs ->].
  assert (Hlen : length qs = length ds).
  { rewrite <- (Permutation_length Hperm), map_length. reflexivity. }
  assert (Hle : forall i j x y, (i <= j)%nat -> map Fin qs !! i = Some x -> map Fin qs !! j = Some y -> xltb y x = false).
  { intros i j x y. apply (sorted_nth (nle (NN := XQ sq)) (map Fin qs)); [intros z; apply xltb_irrefl|exact Hs]. }
  assert (Hfin : forall i x, map Fin qs !! i = Some x -> exists q, qs !! i = Some q /\ x = Fin q).
  { intros i x Hx. assert (Hm : map Fin qs !! i = Fin <$> (qs !! i)) by apply list_lookup_fmap.
    rewrite Hm in Hx. destruct (qs !! i) as [q|]; [|discriminate]. injection Hx as <-. eauto. }
  destruct (Hfin _ _ H0) as (lo & Hlo & ->). destruct (Hfin _ _ Hu) as (up & Hup & ->).
  destruct (Hfin _ _ Htu) as (tu & Htu' & ->).
  assert (Htk : take k (map Fin qs) = map Fin (take k qs)) by (apply firstn_map).
  cbn [ndiv nsum nadd nofZ XQ n0]. unfold nsum. cbn [nadd XQ n0 nofZ].
  rewrite Htk. change (n0 (NN := XQ sq)) with (Fin (QcZ 0)). rewrite xsum_fin.
  assert (Hkl : length (take k qs) = k) by (rewrite take_length; lia).
  assert (Hb : Forall (fun q => lo <= q /\ q <= tu)%Qc (take k qs)).
  { apply Forall_forall. intros q Hq. apply elem_of_list_lookup in Hq. destruct Hq as [i Hi].
    assert (Hik : (i < k)%nat) by (rewrite <- Hkl; eapply lookup_lt_Some; exact Hi).
    rewrite lookup_take in Hi by exact Hik.
    assert (Hqi : map Fin qs !! i = Some (Fin q)).
    { assert (Hm : map Fin qs !! i = Fin <$> (qs !! i)) by apply list_lookup_fmap. rewrite Hm, Hi. reflexivity. }
    pose proof (Hle 0%nat i _ _ ltac:(lia) H0 Hqi) as L1. pose proof (Hle i (k - 1)%nat _ _ ltac:(lia) Hqi Htu) as L2.
    cbn in L1, L2. apply Qc_ltb_ge in L1. apply Qc_ltb_ge in L2. auto. }
  assert (Hne : take k qs <> []) by (intros Hx; rewrite Hx in Hkl; cbn in Hkl; lia).
  destruct (mean_between _ _ _ Hne Hb) as [M1 M2]. rewrite Hkl in M1, M2.
  cbn [xdiv xltb]. refine (conj _ (conj _ (conj _ _))).
  - apply Qc_ltb_ge. exact M1.
  - apply Qc_ltb_ge. exact M2.
  - exact (Hle (k - 1)%nat (length ds - 1)%nat _ _ ltac:(lia) Htu Hu).
  - unfold finite. eauto 8.
Qed.
