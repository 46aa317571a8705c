(** Facts about the exact numbers that the statements about every arithmetic
    take as laws, and the percentile arithmetic of timers. *)
From Verif Require Import Base Num NumFacts Env Stats Glob Metrics Gen Processor TimerFacts.
From Coq Require Import QArith Qcanon Qround Lqa.
Open Scope Z_scope.

Lemma xltb_asym a b : xltb a b = true -> xltb b a = false.
Proof.
  intros H. destruct (xltb b a) eqn:E; [|reflexivity]. pose proof (xltb_trans _ _ _ H E) as Ht.
  rewrite xltb_irrefl in Ht. discriminate.
Qed.
Lemma xltb_negtrans a b c : a <> NaN -> b <> NaN -> c <> NaN ->
  xltb a b = false -> xltb b c = false -> xltb a c = false.
Proof.
  intros Ha Hb Hc H1 H2. destruct (xltb a c) eqn:E; [|reflexivity]. exfalso.
  destruct (xltb b a) eqn:E1.
  - rewrite (xltb_trans _ _ _ E1 E) in H2. discriminate.
  - assert (a = b) by (apply xltb_total; auto). subst b. congruence.
Qed.
Global Instance XQ_ord sq : NumOrd (XQ sq).
Proof.
  refine {| nok := (fun x : xq => x <> NaN) : @Num.num (XQ sq) -> Prop |}.
  - intros a b _ _. apply xltb_asym.
  - intros a b c. apply xltb_negtrans.
Defined.

(** floor of a quotient *)
Lemma Qcfloor_spec q z : Qcfloor q = z <-> (QcZ z <= q)%Qc /\ (q < QcZ (z + 1))%Qc.
Proof.
  unfold Qcfloor. split.
  - intros <-. split.
    + unfold Qcle. rewrite QcZ_this. apply Qfloor_le.
    + unfold Qclt. rewrite QcZ_this. apply Qlt_floor.
  - intros [H1 H2]. unfold Qcle in H1. unfold Qclt in H2. rewrite QcZ_this in H1, H2.
    assert (Hz : (z <= Qfloor (this q))%Z).
    { rewrite <- (Qfloor_Z z). apply Qfloor_resp_le. exact H1. }
    assert (Hlt : (Qfloor (this q) < z + 1)%Z).
    { rewrite Zlt_Qlt. eapply Qle_lt_trans; [apply Qfloor_le|exact H2]. }
    lia.
Qed.

Lemma Qcpow10_0 : Qcpow10 0 = 1%Qc. Proof. apply Qc_is_canon. reflexivity. Qed.
Lemma Qctrunc_Z z : Qctrunc (QcZ z) = z.
Proof.
  unfold Qctrunc. assert (H : this (QcZ z) = inject_Z z).
  { unfold QcZ, Q2Qc. cbn [this]. unfold Qred, inject_Z.
    pose proof (Z.ggcd_gcd z 1) as Hg. pose proof (Z.ggcd_correct_divisors z 1) as Hd.
    rewrite Z.gcd_1_r in Hg.
    destruct (Z.ggcd z 1) as [g [a b]]. cbn [fst] in Hg. subst g. destruct Hd as [Ha Hb].
    cbn [snd]. replace a with z by lia. replace b with 1 by lia. reflexivity. }
  rewrite H. cbn. apply Z.quot_1_r.
Qed.

Lemma trimmed_xq sq percent n t :
  set_aside percent n t -> 0 <= n -> percent <= 100 ->
  trimmed (NN := XQ sq) percent n = Ok t.
Proof.
  intros [H1 H2] Hn Hp. unfold trimmed. cbn [ntrunc nround nmul ndiv nofZ XQ xtrunc xround xmul xdiv].
  set (q := (QcZ (100 - percent) / QcZ 100 * QcZ n)%Qc).
  assert (Hq : (q = QcZ (n * (100 - percent)) / QcZ 100)%Qc).
  { unfold q. rewrite QcZ_mul. unfold Qcdiv. ring. }
  assert (Hz : Qcround0 (q * Qcpow10 0)%Qc = t).
  { rewrite Qcpow10_0, Qcmult_1_r. unfold Qcround0, Qcneg.
    assert (Hpos : (QcZ 0 <= q)%Qc).
    { rewrite Hq. assert (HZ : (QcZ 0 <= QcZ (n * (100 - percent)))%Qc) by (apply QcZ_le; nia).
      unfold Qcle in *. rewrite this_div. rewrite !QcZ_this in *.
      unfold Qdiv. apply Qle_shift_div_l; [reflexivity|]. setoid_replace (inject_Z 0 * inject_Z 100)%Q with (inject_Z 0) by reflexivity. exact HZ. }
    rewrite (proj2 (Qc_ltb_ge _ _)) by exact Hpos.
    apply Qcfloor_spec. rewrite Hq.
    assert (HA : (2 * n * (100 - percent) - 100 <= 200 * t - 1)%Z) by lia.
    split.
    - unfold Qcle. rewrite this_add, this_div, !QcZ_this. cbn [this Q2Qc].
      assert (Hz2 : (inject_Z (200 * t) <= inject_Z (2 * n * (100 - percent) + 100))%Q) by (rewrite <- Zle_Qle; exact H2).
      rewrite !inject_Z_plus, !inject_Z_mult in Hz2. rewrite !inject_Z_mult.
      setoid_replace (Qred (1 # 2))%Q with (1#2)%Q by reflexivity.
      change (inject_Z 100) with (100#1)%Q in *. change (inject_Z 200) with (200#1)%Q in *. change (inject_Z 2) with (2#1)%Q in *.
      generalize dependent (inject_Z n). generalize dependent (inject_Z (100 - percent)). generalize dependent (inject_Z t).
      intros a b c Hx. unfold Qdiv. change (/ (100#1))%Q with (1#100)%Q. nra.
    - unfold Qclt. rewrite this_add, this_div, !QcZ_this. cbn [this Q2Qc].
      assert (Hz2 : (inject_Z (2 * n * (100 - percent) - 100) < inject_Z (200 * t))%Q) by (rewrite <- Zlt_Qlt; exact H1).
      unfold Z.sub in Hz2. rewrite !inject_Z_plus, !inject_Z_mult in Hz2. rewrite !inject_Z_mult, !inject_Z_plus.
      setoid_replace (Qred (1 # 2))%Q with (1#2)%Q by reflexivity.
      unfold Z.sub. rewrite !inject_Z_plus in *. rewrite ?inject_Z_opp in *.
      change (inject_Z 100) with (100#1)%Q in *. change (inject_Z 200) with (200#1)%Q in *. change (inject_Z 2) with (2#1)%Q in *.
      change (inject_Z 1) with (1#1)%Q in *.
      generalize dependent (inject_Z n). generalize dependent (inject_Z percent). generalize dependent (inject_Z t).
      intros a b c Hx. unfold Qdiv. change (/ (100#1))%Q with (1#100)%Q. nra. }
  rewrite Hz. replace (- 0)%Z with 0%Z by reflexivity. rewrite Qcpow10_0, Qcmult_1_r, Qctrunc_Z. reflexivity.
Qed.
Lemma set_aside_exists percent n : exists t, set_aside percent n t.
Proof.
  exists ((2 * n * (100 - percent) + 100) / 200). unfold set_aside.
  pose proof (Z.div_mod (2 * n * (100 - percent) + 100) 200 ltac:(lia)).
  pose proof (Z.mod_pos_bound (2 * n * (100 - percent) + 100) 200 ltac:(lia)). lia.
Qed.
Lemma set_aside_fun percent n t t' : set_aside percent n t -> set_aside percent n t' -> t = t'.
Proof. unfold set_aside. lia. Qed.
Lemma set_aside_range percent n t : 26 <= percent <= 100 -> 2 <= n -> set_aside percent n t -> 0 <= t < n.
Proof. unfold set_aside. intros. nia. Qed.

Lemma ndiv_one sq (x : xq) : ndiv (Num := XQ sq) (nadd (Num := XQ sq) (n0 (NN := XQ sq)) x) (nofZ (Num := XQ sq) 1) = x.
Proof.
  cbn [ndiv nadd n0 nofZ XQ]. change (xadd (Fin (QcZ 0)) x) with (xadd x0 x). rewrite xadd_0_l.
  destruct x as [q|s|]; cbn; [|destruct s; reflexivity|reflexivity].
  f_equal. rewrite QcZ_1. unfold Qcdiv. replace (/ 1)%Qc with 1%Qc by (apply Qc_is_canon; reflexivity). ring.
Qed.
Lemma nofZ_nonzero sq z : z <> 0 -> neqb (Num := XQ sq) (nofZ (Num := XQ sq) z) (n0 (NN := XQ sq)) = false.
Proof.
  intros Hz. cbn [neqb nofZ n0 XQ]. unfold xeqb. destruct (Qc_eqb _ _) eqn:E; [|reflexivity].
  apply Qc_eqb_eq in E. apply QcZ_inj in E. contradiction.
Qed.

(** C14/C16 core *)
Lemma timer_stats_xq sq percent (ds : list xq) : 26 <= percent <= 100 -> ds <> [] -> Forall (fun x => x <> NaN) ds ->
  exists lower mean upper tupper,
    timer_stats (NN := XQ sq) percent ds = Ok (mean, upper, tupper, lower, Z.of_nat (length ds)) /\
    order_stats (NN := XQ sq) percent ds lower mean upper tupper (Z.of_nat (length ds)).
Proof.
  intros Hp Hne Hok. destruct (set_aside_exists percent (Z.of_nat (length ds))) as [t Ht].
  apply (timer_stats_spec (NN := XQ sq) (NO := XQ_ord sq) percent ds t Hne Hok).
  intros Hn. pose proof (set_aside_range percent _ t Hp Hn Ht) as Hr.
    split; [apply trimmed_xq; [exact Ht|lia|lia]|]. split; [exact Ht|]. split; [exact Hr|].
    apply nofZ_nonzero. lia.
Qed.
