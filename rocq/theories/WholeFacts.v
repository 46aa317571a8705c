(** Doubles that are multiples of a power of two: exact sums up to 2^53 units. *)
From Verif Require Import Base Num B64.
From Coq Require Import Floats.SpecFloat.
Open Scope Z_scope.

Lemma digits_log p : Zpos (digits2_pos p) = Z.log2 (Zpos p) + 1.
Proof.
  induction p as [p IH|p IH|]; cbn [digits2_pos].
  - rewrite Pos2Z.inj_succ, IH. change (Zpos p~1) with (2 * Zpos p + 1). rewrite Z.log2_succ_double; lia.
  - rewrite Pos2Z.inj_succ, IH. change (Zpos p~0) with (2 * Zpos p). rewrite Z.log2_double; lia.
  - reflexivity.
Qed.
Lemma digits_mul p k : 0 <= k -> Zdigits2 (Zpos p * 2 ^ k) = Zpos (digits2_pos p) + k.
Proof.
  intros Hk. assert (H : 0 < Zpos p * 2 ^ k) by (apply Z.mul_pos_pos; [lia|apply Z.pow_pos_nonneg; lia]).
  destruct (Zpos p * 2 ^ k) as [|q|q] eqn:Eq; try lia. cbn [Zdigits2]. rewrite !digits_log, <- Eq.
  rewrite Z.log2_mul_pow2 by lia. lia.
Qed.
Lemma shift_pos_mul d m : Zpos (shift_pos d m) = Zpos m * 2 ^ Zpos d.
Proof. rewrite shift_pos_correct, Zpower_pos_nat. rewrite Zpower_nat_Z. rewrite positive_nat_Z. ring. Qed.

(** shifting out zeros *)
Definition exact_rec (m : Z) : shr_record := Build_shr_record m false false.
Lemma iter_pos_add {A} (f : A -> A) n : forall x, iter_pos f n x = Pos.iter f x n.
Proof.
  induction n as [n IH|n IH|]; intros x; cbn [iter_pos Pos.iter]; [|rewrite !IH; reflexivity|reflexivity].
  rewrite !IH. rewrite <- Pos.iter_swap, <- Pos.iter_swap. reflexivity.
Qed.
Lemma shr_zeros n : forall m, iter_pos shr_1 n (exact_rec (Zpos m * 2 ^ Zpos n)) = exact_rec (Zpos m).
Proof.
  intros m. rewrite iter_pos_add. revert m. induction n as [|n IH] using Pos.peano_ind; intros m.
  - cbn [Pos.iter]. change (2 ^ 1) with 2. rewrite Z.mul_comm. reflexivity.
  - rewrite Pos.iter_succ_r. rewrite Pos2Z.inj_succ, Z.pow_succ_r by lia.
    assert (H : 0 < Zpos m * 2 ^ Zpos n) by (apply Z.mul_pos_pos; [lia|apply Z.pow_pos_nonneg; lia]).
    replace (Zpos m * (2 * 2 ^ Zpos n)) with (2 * (Zpos m * 2 ^ Zpos n)) by ring.
    specialize (IH m). destruct (Zpos m * 2 ^ Zpos n) as [|q|q]; try lia. exact IH.
Qed.

(** the normal doubles *)
Definition normal (m : positive) (e : Z) : Prop := Zpos (digits2_pos m) = 53 /\ -1074 <= e <= 971.
Lemma fexp_normal m e : normal m e -> fexp prec emax (53 + e) = e.
Proof. intros [_ H]. unfold fexp, emin, prec, emax. lia. Qed.

Lemma round_aux_exact s m e k : normal m e -> 0 <= k ->
  binary_round_aux prec emax s (Zpos m * 2 ^ k) (e - k) loc_Exact = S754_finite s m e.
Proof.
  intros Hn Hk. unfold binary_round_aux, shr_fexp. rewrite digits_mul by exact Hk.
  pose proof (proj1 Hn) as Hd. pose proof (fexp_normal m e Hn) as Hf.
  replace (Zpos (digits2_pos m) + k + (e - k)) with (53 + e) by lia. rewrite Hf.
  replace (e - (e - k)) with k by lia. cbn [shr_record_of_loc].
  assert (Hs : shr (Build_shr_record (Zpos m * 2 ^ k) false false) (e - k) k = (exact_rec (Zpos m), e)).
  { unfold shr. destruct k as [|n|n]; [|fold (exact_rec (Zpos m * 2 ^ Zpos n)); rewrite (shr_zeros n m)|lia].
    - rewrite Z.mul_1_r. f_equal; lia.
    - f_equal. lia. }
  rewrite Hs. cbn [exact_rec shr_m loc_of_shr_record round_nearest_even Zdigits2 shr_record_of_loc].
  rewrite Hd, Hf. rewrite Z.sub_diag. cbn [shr shr_m].
  assert (Hl : (e <=? emax - prec) = true) by (destruct Hn; unfold emax, prec; lia). rewrite Hl. reflexivity.
Qed.

Lemma round_exact s m e k : normal m e -> 0 <= k ->
  (forall p x, Zpos p * 2 ^ k = Zpos m -> x = e + k -> binary_round prec emax s p x = S754_finite s m e) /\
  (forall p x, Zpos p = Zpos m * 2 ^ k -> x = e - k -> binary_round prec emax s p x = S754_finite s m e).
Proof.
  intros Hn Hk. pose proof (proj1 Hn) as Hd. pose proof (fexp_normal m e Hn) as Hf. split; intros p x Hp ->; unfold binary_round.
  - assert (Hdp : Zpos (digits2_pos p) + (e + k) = 53 + e).
    { pose proof (digits_mul p k Hk) as H. rewrite Hp in H. cbn [Zdigits2] in H. lia. }
    rewrite Hdp, Hf. unfold shl_align. replace (e - (e + k)) with (- k) by lia.
    destruct k as [|n|n]; [| |lia].
    + cbn [Z.opp]. rewrite Z.mul_1_r in Hp. injection Hp as ->. rewrite Z.add_0_r.
      pose proof (round_aux_exact s m e 0 Hn) as H. rewrite Z.mul_1_r, Z.sub_0_r in H. apply H; lia.
    + change (- Zpos n) with (Zneg n). cbv iota beta. 
      rewrite shift_pos_mul, Hp.
      pose proof (round_aux_exact s m e 0 Hn) as H. rewrite Z.mul_1_r, Z.sub_0_r in H. apply H; lia.
  - assert (Hdp : Zpos (digits2_pos p) + (e - k) = 53 + e).
    { pose proof (digits_mul m k Hk) as H. rewrite <- Hp in H. cbn [Zdigits2] in H. lia. }
    rewrite Hdp, Hf. unfold shl_align. replace (e - (e - k)) with k by lia.
    destruct k as [|n|n]; [| |lia]; rewrite Hp; apply round_aux_exact; auto.
Qed.

(** every count of at most 2^53 units 2^u is a normal double *)
Lemma has_normal z u : 0 < z <= 2 ^ 53 -> -1000 <= u <= 900 ->
  exists m e, normal m e /\ ((exists k, 0 <= k /\ z * 2 ^ k = Zpos m /\ u = e + k) \/ (z = Zpos m * 2 /\ u = e - 1)).
Proof.
  intros Hz Hu. destruct z as [|p|p]; try lia. destruct (Z.eq_dec (Zpos p) (2 ^ 53)) as [He|He].
  - exists (Z.to_pos (2 ^ 52)), (u + 1). split; [split; [reflexivity|lia]|]. right. split; [rewrite He; reflexivity|lia].
  - assert (Hd : Z.log2 (Zpos p) < 53) by (apply Z.log2_lt_pow2; lia).
    pose proof (Z.log2_nonneg (Zpos p)). set (k := 52 - Z.log2 (Zpos p)).
    assert (H1 : 0 < Zpos p * 2 ^ k) by (apply Z.mul_pos_pos; [lia|apply Z.pow_pos_nonneg; lia]).
    destruct (Zpos p * 2 ^ k) as [|q|q] eqn:Eq; try lia. exists q, (u - k). split.
    + split; [|lia]. pose proof (digits_mul p k ltac:(lia)) as Hx. rewrite Eq in Hx. cbn [Zdigits2] in Hx.
      rewrite Hx, digits_log. lia.
    + left. exists k. repeat split; lia.
Qed.
(** [x] is [z] units 2^u; a zero may be negative *)
Definition units (u z : Z) (x : f64) : Prop :=
  x = binary_normalize prec emax z u false \/ (z = 0 /\ x = S754_zero true).
Definition in_range (z : Z) : Prop := Z.abs z <= 2 ^ 53.

Lemma units_finite u z x : units u z x -> in_range z -> -1000 <= u <= 900 -> z <> 0 ->
  exists m e, normal m e /\ x = S754_finite (z <? 0) m e /\
    ((exists k, 0 <= k /\ Z.abs z * 2 ^ k = Zpos m /\ u = e + k) \/ (Z.abs z = Zpos m * 2 /\ u = e - 1)).
Proof.
  unfold in_range. intros Hx Hz Hu Hn. destruct (has_normal (Z.abs z) u ltac:(lia) Hu) as (m & e & Hm & H).
  exists m, e. split; [exact Hm|]. split; [|exact H]. destruct Hx as [->|[? _]]; [|lia].
  destruct H as [(k & Hk & H1 & H2)|[H1 H2]].
  - destruct z as [|p|p]; [lia| |]; cbn [binary_normalize Z.ltb Z.compare Z.abs] in *;
      exact (proj1 (round_exact _ m e k Hm Hk) p u H1 H2).
  - destruct z as [|p|p]; [lia| |]; cbn [binary_normalize Z.ltb Z.compare Z.abs] in *;
      (apply (proj2 (round_exact _ m e 1 Hm ltac:(lia))); [exact H1|exact H2]).
Qed.
(** the same number in smaller or larger units *)
Lemma normalize_same z u w d : in_range z -> -1000 <= u <= 900 -> 0 <= d -> w = z * 2 ^ d ->
  binary_normalize prec emax w (u - d) false = binary_normalize prec emax z u false.
Proof.
  intros Hz Hu Hd Hw. destruct (Z.eq_dec z 0) as [->|Hn]; [subst w; reflexivity|].
  destruct (units_finite u z _ (or_introl eq_refl) Hz Hu Hn) as (m & e & Hm & -> & H).
  assert (Habs : Z.abs w = Z.abs z * 2 ^ d).
  { subst w. rewrite Z.abs_mul. rewrite (Z.abs_eq (2 ^ d)); [reflexivity|apply Z.pow_nonneg; lia]. }
  assert (Hp : 0 < 2 ^ d) by (apply Z.pow_pos_nonneg; lia).
  assert (Hs : (w <? 0) = (z <? 0)) by (subst w; apply eq_true_iff_eq; rewrite !Z.ltb_lt; nia).
  assert (Hw0 : w <> 0) by (subst w; nia).
  assert (Hr : binary_round prec emax (z <? 0) (Z.to_pos (Z.abs w)) (u - d) = S754_finite (z <? 0) m e).
  { destruct H as [(k & Hk & H1 & H2)|[H1 H2]].
    - destruct (Z.le_ge_cases d k) as [Hdk|Hdk].
      + apply (proj1 (round_exact (z <? 0) m e (k - d) Hm ltac:(lia))); [|lia]. rewrite Z2Pos.id by lia.
        rewrite Habs, <- H1, <- Z.mul_assoc, <- Z.pow_add_r by lia. do 2 f_equal. lia.
      + apply (proj2 (round_exact (z <? 0) m e (d - k) Hm ltac:(lia))); [|lia]. rewrite Z2Pos.id by lia.
        rewrite Habs, <- H1, <- Z.mul_assoc, <- Z.pow_add_r by lia. do 2 f_equal. lia.
    - apply (proj2 (round_exact (z <? 0) m e (d + 1) Hm ltac:(lia))); [|lia]. rewrite Z2Pos.id by lia.
      rewrite Habs, H1. rewrite Z.pow_add_r by lia. ring. }
  destruct w as [|p|p]; [lia| |]; cbn [binary_normalize]; cbn [Z.abs Z.to_pos] in Hr; rewrite <- Hs in *; exact Hr.
Qed.

Lemma align_value m e ez : ez <= e -> Zpos (fst (shl_align m e ez)) = Zpos m * 2 ^ (e - ez).
Proof.
  intros H. unfold shl_align. destruct (ez - e) as [|d|d] eqn:Ed; [|lia|].
  - cbn [fst]. replace (e - ez) with 0 by lia. rewrite Z.mul_1_r. reflexivity.
  - cbn [fst]. rewrite shift_pos_mul. replace (e - ez) with (Zpos d) by lia. reflexivity.
Qed.
(** a normal double of [z] units, in units 2^w small enough *)
Lemma units_value z u m e w : 0 <= z -> w <= e -> w <= u ->
  ((exists k, 0 <= k /\ z * 2 ^ k = Zpos m /\ u = e + k) \/ (z = Zpos m * 2 /\ u = e - 1)) ->
  Zpos m * 2 ^ (e - w) = z * 2 ^ (u - w).
Proof.
  intros Hz Hw Hw' [(k & Hk & <- & ->)|[-> ->]].
  - rewrite <- Z.mul_assoc, <- Z.pow_add_r by lia. do 2 f_equal. lia.
  - replace (e - w) with (1 + (e - 1 - w)) by lia. rewrite Z.pow_add_r by lia. ring.
Qed.
Lemma signed z a : 0 <= a -> Z.abs z = a -> cond_Zopp (z <? 0) a = z.
Proof. intros Ha H. unfold cond_Zopp. destruct (z <? 0) eqn:E; lia. Qed.
Lemma units_zero u x : units u 0 x <-> exists s, x = S754_zero s.
Proof.
  unfold units. cbn [binary_normalize]. split.
  - intros [->|[_ ->]]; eauto.
  - intros [[] ->]; auto.
Qed.
Lemma normal_no_zero u z : in_range z -> -1000 <= u <= 900 -> z <> 0 ->
  exists m e, binary_normalize prec emax z u false = S754_finite (z <? 0) m e.
Proof.
  intros Hz Hu Hn. destruct (units_finite u z _ (or_introl eq_refl) Hz Hu Hn) as (m & e & _ & H & _). eauto.
Qed.

(** a sum of two multiples of the unit is exact *)
Theorem units_add u a b x y : -1000 <= u <= 900 -> in_range a -> in_range b -> in_range (a + b) ->
  units u a x -> units u b y -> units u (a + b) (SFadd prec emax x y).
Proof.
  intros Hu Ha Hb Hab Hx Hy.
  destruct (Z.eq_dec a 0) as [->|Hna].
  { apply units_zero in Hx as [sx ->]. destruct (Z.eq_dec b 0) as [->|Hnb].
    - apply units_zero in Hy as [sy ->]. apply units_zero. cbn. destruct sx, sy; cbn; eauto.
    - destruct (units_finite u b y Hy Hb Hu Hnb) as (m & e & _ & -> & _). cbn [SFadd Z.add]. exact Hy. }
  destruct (units_finite u a x Hx Ha Hu Hna) as (m & e & Hm & -> & H1).
  destruct (Z.eq_dec b 0) as [->|Hnb].
  { apply units_zero in Hy as [sy ->]. rewrite Z.add_0_r. cbn [SFadd]. exact Hx. }
  destruct (units_finite u b y Hy Hb Hu Hnb) as (m' & e' & Hm' & -> & H2).
  left. cbn [SFadd]. set (ez := Z.min e e'). rewrite !align_value by lia.
  set (w := Z.min ez u).
  assert (Hsum : forall z k j, cond_Zopp (z <? 0) (k * 2 ^ j) = cond_Zopp (z <? 0) k * 2 ^ j)
    by (intros z k j; unfold cond_Zopp; destruct (z <? 0); ring).
  assert (Hva : cond_Zopp (a <? 0) (Zpos m * 2 ^ (e - ez)) * 2 ^ (ez - w) = a * 2 ^ (u - w)).
  { rewrite <- Hsum, <- Z.mul_assoc, <- Z.pow_add_r by lia. replace (e - ez + (ez - w)) with (e - w) by lia.
    rewrite (units_value (Z.abs a) u m e w ltac:(lia) ltac:(lia) ltac:(lia) H1), Hsum, signed by lia. reflexivity. }
  assert (Hvb : cond_Zopp (b <? 0) (Zpos m' * 2 ^ (e' - ez)) * 2 ^ (ez - w) = b * 2 ^ (u - w)).
  { rewrite <- Hsum, <- Z.mul_assoc, <- Z.pow_add_r by lia. replace (e' - ez + (ez - w)) with (e' - w) by lia.
    rewrite (units_value (Z.abs b) u m' e' w ltac:(lia) ltac:(lia) ltac:(lia) H2), Hsum, signed by lia. reflexivity. }
  set (M := cond_Zopp (a <? 0) (Zpos m * 2 ^ (e - ez)) + cond_Zopp (b <? 0) (Zpos m' * 2 ^ (e' - ez))).
  assert (HM : M * 2 ^ (ez - w) = (a + b) * 2 ^ (u - w)) by (unfold M; rewrite !Z.mul_add_distr_r, Hva, Hvb; reflexivity).
  destruct (Z_le_gt_dec ez u) as [Hez|Hez].
  - assert (Hw : w = ez) by lia. rewrite Hw, Z.sub_diag, Z.mul_1_r in HM.
    rewrite <- (normalize_same (a + b) u M (u - ez) Hab Hu ltac:(lia) HM). f_equal. lia.
  - assert (Hbig : forall z k, normal k (u + 1) -> Z.abs z = Zpos k * 2 -> 2 ^ 53 <= Z.abs z).
    { intros z k [Hd _] Hz. rewrite digits_log in Hd. destruct (Z.log2_spec (Zpos k) ltac:(lia)) as [Hl _].
      replace (Z.log2 (Zpos k)) with 52 in Hl by lia. lia. }
    assert (He : e = u + 1) by (destruct H1 as [(k & Hk & _ & Hu1)|[_ Hu1]]; lia).
    assert (He' : e' = u + 1) by (destruct H2 as [(k & Hk & _ & Hu1)|[_ Hu1]]; lia).
    assert (Ba : 2 ^ 53 <= Z.abs a).
    { destruct H1 as [(k & Hk & _ & Hu1)|[Hz _]]; [lia|]. apply (Hbig a m); [rewrite <- He; exact Hm|exact Hz]. }
    assert (Bb : 2 ^ 53 <= Z.abs b).
    { destruct H2 as [(k & Hk & _ & Hu1)|[Hz _]]; [lia|]. apply (Hbig b m'); [rewrite <- He'; exact Hm'|exact Hz]. }
    unfold in_range in *. assert (Hz : a + b = 0) by lia. rewrite Hz in *.
    assert (HM0 : M = 0).
    { assert (0 < 2 ^ (ez - w)) by (apply Z.pow_pos_nonneg; lia). nia. }
    rewrite HM0. reflexivity.
Qed.

(** multiplying by one, and integer literals *)
Definition one64 : f64 := f_ofZ 1.
Lemma units_mul_one u z x : -1000 <= u <= 900 -> in_range z -> units u z x -> units u z (SFmul prec emax x one64).
Proof.
  intros Hu Hz Hx. change one64 with (S754_finite false 4503599627370496 (-52)).
  destruct (Z.eq_dec z 0) as [->|Hn].
  { apply units_zero in Hx as [s ->]. apply units_zero. cbn. eauto. }
  destruct (units_finite u z x Hx Hz Hu Hn) as (m & e & Hm & -> & H). cbn [SFmul].
  rewrite Pos2Z.inj_mul. change 4503599627370496 with (2 ^ 52). replace (e + -52) with (e - 52) by lia.
  rewrite xorb_false_r, round_aux_exact by (exact Hm || lia). exact Hx.
Qed.
Lemma frat_int (s : bool) z : 0 <= z <= 2 ^ 53 -> units 0 (if s then - z else z) (frat s z 1).
Proof.
  intros Hz. destruct z as [|p|p]; [destruct s; [right|left]; auto| |lia].
  unfold frat. set (z := Zpos p) in *.
  destruct (has_normal z 0 ltac:(lia) ltac:(lia)) as (m & e & Hm & H).
  assert (Hd : 1 <= Zpos (digits2_pos p) <= 54).
  { rewrite digits_log. pose proof (Z.log2_nonneg (Zpos p)). pose proof (Z.log2_le_mono (Zpos p) (2 ^ 53) ltac:(lia)) as Hl.
    rewrite Z.log2_pow2 in Hl by lia. lia. }
  assert (Hc : SFdiv_core_binary prec emax z 0 1 0 = (z * 2 ^ (54 - Zpos (digits2_pos p)), Zpos (digits2_pos p) - 54, loc_Exact)).
  { unfold SFdiv_core_binary. cbn [Zdigits2 z]. cbn [digits2_pos].
    set (d := Zpos (digits2_pos p)) in *.
    assert (He : Z.min (fexp prec emax (d + 0 - (1 + 0))) (0 - 0) = d - 54) by (unfold fexp, emin, prec, emax; lia).
    rewrite He. replace (0 - 0 - (d - 54)) with (54 - d) by lia.
    match goal with |- context [Z.div_eucl ?x 1] => assert (Hm' : x = z * 2 ^ (54 - d)) end.
    { destruct (54 - d) as [|k|k] eqn:Ek; [unfold z; lia| |lia]. rewrite Z.shiftl_mul_pow2 by lia. reflexivity. }
    rewrite Hm'. destruct (Z.div_eucl (z * 2 ^ (54 - d)) 1) as [q r] eqn:Eq.
    pose proof (Z_div_mod (z * 2 ^ (54 - d)) 1 ltac:(lia)) as Hq. rewrite Eq in Hq. destruct Hq as [Hq1 Hq2].
    assert (r = 0) as -> by lia. rewrite Z.mul_1_l, Z.add_0_r in Hq1. rewrite <- Hq1. reflexivity. }
  rewrite Hc. left.
  assert (Hr : binary_round_aux prec emax s (z * 2 ^ (54 - Zpos (digits2_pos p))) (Zpos (digits2_pos p) - 54) loc_Exact = S754_finite s m e).
  { destruct Hm as [Hm1 Hm2]. destruct H as [(k & Hk & H1 & H2)|[H1 H2]].
    - assert (Hdk : Zpos (digits2_pos p) + k = 53) by (rewrite <- Hm1; rewrite <- (digits_mul p k Hk); fold z; rewrite H1; reflexivity).
      replace (z * 2 ^ (54 - Zpos (digits2_pos p))) with (Zpos m * 2 ^ 1).
      2:{ rewrite <- H1, <- Z.mul_assoc, <- Z.pow_add_r by lia. do 2 f_equal. lia. }
      replace (Zpos (digits2_pos p) - 54) with (e - 1) by lia. apply round_aux_exact; [split; assumption|lia].
    - assert (Hdk : Zpos (digits2_pos p) = 54).
      { pose proof (digits_mul m 1 ltac:(lia)) as Hx. change (2 ^ 1) with 2 in Hx. rewrite <- H1 in Hx. cbn [Zdigits2 z] in Hx. lia. }
      rewrite Hdk. rewrite H1. replace (Zpos m * 2 * 2 ^ (54 - 54)) with (Zpos m * 2 ^ 1) by lia.
      replace (54 - 54) with (e - 1) by lia. apply round_aux_exact; [split; assumption|lia]. }
  rewrite Hr.
  assert (Hn : forall s', binary_round prec emax s' p 0 = S754_finite s' m e).
  { intros s'. destruct H as [(k & Hk & H1 & H2)|[H1 H2]].
    - apply (proj1 (round_exact s' m e k Hm Hk)); [exact H1|exact H2].
    - apply (proj2 (round_exact s' m e 1 Hm ltac:(lia))); [exact H1|exact H2]. }
  destruct s; cbn [Z.opp z binary_normalize]; symmetry; apply Hn.
Qed.
