(** How many durations are set aside, computed in doubles: int(round((100 - percent) / 100.0 * count)). *)
From Verif Require Import Base Num B64 Processor TimerFacts WholeFacts.
From Coq Require Import Floats.SpecFloat.
Open Scope Z_scope.

(** ** Rounding of an exact product to 53 bits *)
(** [n] bits of [M] shifted out *)
Definition shifted (M n : Z) (x : shr_record) : Prop :=
  exists rem, M = shr_m x * 2 ^ n + rem /\ 0 <= rem < 2 ^ n /\ 0 <= shr_m x /\
    (shr_r x = true <-> 2 ^ n <= 2 * rem) /\ (shr_s x = false <-> rem = 0 \/ 2 * rem = 2 ^ n).
Lemma shift_first M : 0 <= M -> shifted M 1 (shr_1 (exact_rec M)).
Proof.
  intros H. unfold exact_rec, shr_1. cbn [orb]. destruct M as [|[p|p|]|p]; try lia.
  - exists 0. cbn. split; [lia|]. split; [lia|]. split; [lia|]. split; split; intros; auto; try discriminate; lia.
  - exists 1. cbn [shr_m shr_r shr_s]. change (2 ^ 1) with 2. split; [lia|]. split; [lia|]. split; [lia|]. split; split; intros; auto; lia.
  - exists 0. cbn [shr_m shr_r shr_s]. change (2 ^ 1) with 2. split; [lia|]. split; [lia|]. split; [lia|]. split; split; intros; auto; try discriminate; lia.
  - exists 1. cbn [shr_m shr_r shr_s]. change (2 ^ 1) with 2. split; [lia|]. split; [lia|]. split; [lia|]. split; split; intros; auto; lia.
Qed.
Lemma shift_next M n x : 1 <= n -> shifted M n x -> shifted M (n + 1) (shr_1 x).
Proof.
  intros Hn (rem & H1 & H2 & H3 & H4 & H5). destruct x as [m r s]. cbn [shr_m shr_r shr_s] in *.
  assert (Hp : 2 ^ (n + 1) = 2 * 2 ^ n) by (rewrite Z.pow_add_r by lia; lia).
  assert (Hpos : 0 < 2 ^ n) by lia.
  assert (Hs : orb r s = false <-> rem = 0).
  { rewrite orb_false_iff, H5. split.
    - intros [Hr [H0|H0]]; [exact H0|]. assert (2 ^ n <= 2 * rem) as Hx by lia. apply H4 in Hx. congruence.
    - intros ->. split; [|left; reflexivity]. destruct r; [|reflexivity]. assert (2 ^ n <= 2 * 0) by (apply H4; reflexivity). lia. }
  unfold shr_1. destruct m as [|[p|p|]|p]; try lia.
  - exists rem. cbn [shr_m shr_r shr_s]. rewrite Hp. split; [lia|]. split; [lia|]. split; [lia|]. split; [split; [discriminate|lia]|]. rewrite Hs. lia.
  - exists (2 ^ n + rem). cbn [shr_m shr_r shr_s]. rewrite Hp. split; [nia|]. split; [lia|]. split; [lia|]. split; [split; [lia|reflexivity]|]. rewrite Hs. lia.
  - exists rem. cbn [shr_m shr_r shr_s]. rewrite Hp. split; [nia|]. split; [lia|]. split; [lia|]. split; [split; [discriminate|lia]|]. rewrite Hs. lia.
  - exists (2 ^ n + rem). cbn [shr_m shr_r shr_s]. rewrite Hp. split; [nia|]. split; [lia|]. split; [lia|]. split; [split; [lia|reflexivity]|]. rewrite Hs. lia.
Qed.
Lemma shift_many M n : 0 <= M -> shifted M (Zpos n) (iter_pos shr_1 n (exact_rec M)).
Proof.
  intros H. rewrite iter_pos_add. induction n as [|n IH] using Pos.peano_ind.
  - apply shift_first, H.
  - rewrite Pos.iter_succ, Pos2Z.inj_succ. unfold Z.succ. apply shift_next; [lia|exact IH].
Qed.
(** to nearest *)
Lemma nearest M n x : shifted M n x -> 1 <= n -> let q := round_nearest_even (shr_m x) (loc_of_shr_record x) in
  2 * Z.abs (q * 2 ^ n - M) <= 2 ^ n /\ shr_m x <= q <= shr_m x + 1.
Proof.
  intros (rem & H1 & H2 & H3 & H4 & H5) Hn. destruct x as [m r s]. cbn [shr_m shr_r shr_s loc_of_shr_record] in *.
  destruct r, s; cbn [round_nearest_even].
  - assert (2 ^ n <= 2 * rem) by (apply H4; reflexivity). nia.
  - assert (2 ^ n <= 2 * rem) by (apply H4; reflexivity). destruct (proj1 H5 eq_refl) as [->|H']; [lia|]. destruct (Z.even m); nia.
  - assert (~ 2 ^ n <= 2 * rem) by (intros H; apply H4 in H; discriminate). nia.
  - assert (~ 2 ^ n <= 2 * rem) by (intros H; apply H4 in H; discriminate). destruct (proj1 H5 eq_refl) as [->|H']; nia.
Qed.

Lemma digits_bounds p d : Zpos (digits2_pos p) = d -> 2 ^ (d - 1) <= Zpos p < 2 ^ d.
Proof. rewrite digits_log. intros <-. pose proof (Z.log2_spec (Zpos p) ltac:(lia)) as H. replace (Z.log2 (Zpos p) + 1 - 1) with (Z.log2 (Zpos p)) by lia. replace (Z.log2 (Zpos p) + 1) with (Z.succ (Z.log2 (Zpos p))) by lia. exact H. Qed.
Lemma digits_of p d : 0 <= d -> 2 ^ d <= Zpos p < 2 ^ (d + 1) -> Zpos (digits2_pos p) = d + 1.
Proof. intros Hd H. rewrite digits_log. f_equal. apply Z.log2_unique; [exact Hd|exact H]. Qed.

Lemma round_near s M E k : 1 <= k -> Zpos (digits2_pos M) = 53 + k -> -1074 <= E + k <= 970 ->
  exists m e q, binary_round_aux prec emax s (Zpos M) E loc_Exact = S754_finite s m e /\
    E + k <= e <= E + k + 1 /\ Zpos m * 2 ^ (e - (E + k)) = q /\ 2 * Z.abs (q * 2 ^ k - Zpos M) <= 2 ^ k.
Proof.
  intros Hk Hd He. unfold binary_round_aux, shr_fexp. cbn [Zdigits2]. rewrite Hd.
  assert (Hf : fexp prec emax (53 + k + E) = E + k) by (unfold fexp, emin, prec, emax; lia). rewrite Hf.
  replace (E + k - E) with k by lia. cbn [shr_record_of_loc]. fold (exact_rec (Zpos M)).
  destruct k as [|n|n]; try lia. unfold shr at 1.
  pose proof (shift_many (Zpos M) n ltac:(lia)) as Hsh. set (x := iter_pos shr_1 n (exact_rec (Zpos M))) in *.
  pose proof (nearest _ _ _ Hsh ltac:(lia)) as Hq. cbv zeta in Hq. set (q := round_nearest_even (shr_m x) (loc_of_shr_record x)) in *.
  destruct Hsh as (rem & H1 & H2 & H3 & _). destruct Hq as [Hq1 Hq2]. pose proof (digits_bounds _ _ Hd) as Hb.
  set (k := Zpos n) in *. assert (Hpk : 0 < 2 ^ k) by (apply Z.pow_pos_nonneg; lia).
  assert (Hb1 : 2 ^ 52 * 2 ^ k <= Zpos M) by (rewrite <- Z.pow_add_r by lia; replace (52 + k) with (53 + k - 1) by lia; apply Hb).
  assert (Hb2 : Zpos M < 2 ^ 53 * 2 ^ k) by (rewrite <- Z.pow_add_r by lia; apply Hb).
  assert (Hm1 : 2 ^ 52 <= shr_m x) by nia. assert (Hm2 : shr_m x < 2 ^ 53) by nia.
  destruct q as [|p|p] eqn:Eq; try lia.
  destruct (Z.eq_dec (Zpos p) (2 ^ 53)) as [Hx|Hx].
  - rewrite Hx. change (Zdigits2 (2 ^ 53)) with 54.
    assert (Hf2 : fexp prec emax (54 + (E + k)) = E + k + 1) by (unfold fexp, emin, prec, emax; lia). rewrite Hf2.
    replace (E + k + 1 - (E + k)) with 1 by lia. change (shr {| shr_m := 2 ^ 53; shr_r := false; shr_s := false |} (E + k) 1) with (exact_rec (2 ^ 52), E + k + 1).
    cbn [exact_rec shr_m]. change (2 ^ 52) with (Zpos 4503599627370496).
    assert (Hl : (E + k + 1 <=? emax - prec) = true) by (unfold emax, prec; lia). rewrite Hl.
    exists 4503599627370496%positive, (E + k + 1), (2 ^ 53). split; [reflexivity|]. split; [lia|]. split; [replace (E + k + 1 - (E + k)) with 1 by lia; reflexivity|].
    rewrite <- Hx. exact Hq1.
  - assert (Hdp : Zpos (digits2_pos p) = 53) by (apply (digits_of p 52); [lia|change (52 + 1) with 53; lia]).
    cbn [Zdigits2]. rewrite Hdp.
    assert (Hf2 : fexp prec emax (53 + (E + k)) = E + k) by (unfold fexp, emin, prec, emax; lia). rewrite Hf2, Z.sub_diag.
    cbn [shr shr_m].
    assert (Hl : (E + k <=? emax - prec) = true) by (unfold emax, prec; lia). rewrite Hl.
    exists p, (E + k), (Zpos p). split; [reflexivity|]. split; [lia|]. split; [rewrite Z.sub_diag, Z.mul_1_r; reflexivity|exact Hq1].
Qed.

(** ** Rounding to an integer and truncating *)
Lemma rescale a b a' b' : 0 < b -> 0 < b' -> a * b' = a' * b -> (2 * a + b) / (2 * b) = (2 * a' + b') / (2 * b').
Proof.
  intros Hb Hb' H. rewrite <- (Z.div_mul_cancel_r (2 * a + b) (2 * b) b') by lia.
  rewrite <- (Z.div_mul_cancel_r (2 * a' + b') (2 * b') b) by lia. f_equal; [lia|ring].
Qed.
Lemma units_trunc z x : 0 <= z <= 2 ^ 53 -> units 0 z x -> f_trunc x = Ok z.
Proof.
  intros Hz Hx. destruct (Z.eq_dec z 0) as [->|Hn].
  { apply units_zero in Hx as [s ->]. reflexivity. }
  destruct (units_finite 0 z x Hx ltac:(unfold in_range; lia) ltac:(lia) Hn) as (m & e & Hm & -> & H).
  assert (Hsz : (z <? 0) = false) by lia. rewrite Hsz. rewrite Z.abs_eq in H by lia.
  unfold f_trunc, f_frac. destruct H as [(k & Hk & H1 & H2)|[H1 H2]].
  - destruct (0 <=? e) eqn:Ee.
    + assert (k = 0) as -> by lia. assert (e = 0) as -> by lia. rewrite <- H1. change (2 ^ 0) with 1. rewrite !Z.mul_1_r, Z.div_1_r. reflexivity.
    + replace (- e) with k by lia. rewrite <- H1, Z.div_mul; [reflexivity|]. apply Z.pow_nonzero; lia.
  - assert (e = 1) as -> by lia. cbn [Z.leb Z.compare]. change (2 ^ 1) with 2. rewrite <- H1, Z.div_1_r. reflexivity.
Qed.
Lemma round_trunc m e f B q : f <= e <= f + 1 -> f < 0 -> B = 2 ^ (- f) -> Zpos m * 2 ^ (e - f) = q ->
  0 <= (2 * q + B) / (2 * B) <= 2 ^ 53 ->
  f_trunc (f_round 0 (S754_finite false m e)) = Ok ((2 * q + B) / (2 * B)).
Proof.
  intros He Hf -> Hq Hr. unfold f_round. destruct (f_frac m e) as [a b] eqn:Ef. change (10 ^ 0) with 1.
  assert (Hab : a * 2 ^ (- f) = q * b /\ 0 < b).
  { unfold f_frac in Ef. destruct (0 <=? e) eqn:Ee; injection Ef as <- <-.
    - assert (e = 0) as -> by lia. assert (f = -1) as -> by lia. split; [|lia]. rewrite <- Hq. cbn [Z.sub Z.opp Z.add]. change (2 ^ 0) with 1. lia.
    - split; [|apply Z.pow_pos_nonneg; lia]. rewrite <- Hq, <- Z.mul_assoc, <- Z.pow_add_r by lia. do 2 f_equal. lia. }
  destruct Hab as [Hab Hb]. rewrite Z.mul_1_r. rewrite (rescale a b q (2 ^ (- f)) Hb ltac:(apply Z.pow_pos_nonneg; lia) Hab).
  apply units_trunc; [exact Hr|]. exact (frat_int false _ Hr).
Qed.

(** ** The threshold *)
Definition threshold (r : Z) : f64 := ndiv (Num := B64) (nofZ (Num := B64) r) (nofZ (Num := B64) 100).
Definition near_hundredths (r : Z) : bool :=
  match threshold r with
  | S754_finite false m e => (Zpos (digits2_pos m) =? 53) && (-60 <=? e) && (e <=? -53) && (Z.abs (100 * Zpos m - r * 2 ^ (- e)) <=? 100)
  | _ => false
  end.
Definition not_below (r : Z) : bool :=
  match threshold r with S754_finite false m e => r * 2 ^ (- e) <=? 100 * Zpos m | _ => false end.
Definition upto (n : nat) : list Z := map Z.of_nat (seq 1 n).
Lemma near_all : forallb near_hundredths (upto 99) = true.
Proof. vm_compute. reflexivity. Qed.
Lemma in_upto n z : 1 <= z <= Z.of_nat n -> In z (upto n).
Proof. intros H. unfold upto. apply in_map_iff. exists (Z.to_nat z). split; [lia|]. apply in_seq. lia. Qed.

(** [t] is within reach of [r * c / 100] *)
Lemma product r c m e : 1 <= r <= 99 -> threshold r = S754_finite false m e ->
  near_hundredths r = true -> 1 <= c <= 2 ^ 40 ->
  exists q B, f_trunc (f_round 0 (SFmul prec emax (threshold r) (f_ofZ c))) = Ok ((2 * q + B) / (2 * B)) /\
    0 <= q /\ 4096 <= B /\ Z.even B = true /\ Z.abs (100 * q - r * c * B) <= 250 /\
    (r * 2 ^ (- e) <= 100 * Zpos m -> forall h, 100 * h <= r * c * B -> h <= q).
Proof.
  intros Hr Ht Hn Hc. unfold near_hundredths in Hn. rewrite Ht in *. apply andb_true_iff in Hn as [Hn Hn4]. apply andb_true_iff in Hn as [Hn Hn3].
  apply andb_true_iff in Hn as [Hn1 Hn2]. apply Z.eqb_eq in Hn1. apply Z.leb_le in Hn2, Hn3, Hn4.
  destruct (units_finite 0 c (f_ofZ c)) as (mc & ec & Hm & -> & H); [left; reflexivity|unfold in_range; lia|lia|lia|].
  assert (Hsz : (c <? 0) = false) by lia. rewrite Hsz. rewrite Z.abs_eq in H by lia.
  destruct H as [(j & Hj & H1 & H2)|[H1 H2]]. 2:{ pose proof (digits_bounds _ _ (proj1 Hm)). change (53 - 1) with 52 in *. lia. }
  pose proof (digits_bounds _ _ Hn1) as Bm. pose proof (digits_bounds _ _ (proj1 Hm)) as Bc. change (53 - 1) with 52 in *.
  cbn [SFmul xorb].
  assert (Hlow : 2 ^ 104 <= Zpos (m * mc)).
  { rewrite Pos2Z.inj_mul. change (2 ^ 104) with (2 ^ 52 * 2 ^ 52). apply Z.mul_le_mono_nonneg; lia. }
  assert (Hhigh : Zpos (m * mc) < 2 ^ 106).
  { rewrite Pos2Z.inj_mul. change (2 ^ 106) with (2 ^ 53 * 2 ^ 53). apply Z.mul_lt_mono_nonneg; lia. }
  assert (Hdig : exists k, 52 <= k <= 53 /\ Zpos (digits2_pos (m * mc)) = 53 + k).
  { destruct (Z_lt_le_dec (Zpos (m * mc)) (2 ^ 105)) as [Hx|Hx].
    - exists 52. split; [lia|]. apply (digits_of _ 104); [lia|]. change (104 + 1) with 105. lia.
    - exists 53. split; [lia|]. apply (digits_of _ 105); [lia|]. change (105 + 1) with 106. lia. }
  destruct Hdig as (k & Hk & Hdig).
  assert (Hj2 : 12 <= j <= 52).
  { assert (Hx : 2 ^ 52 <= 2 ^ 40 * 2 ^ j) by (pose proof (Z.pow_pos_nonneg 2 j ltac:(lia) Hj); nia).
    assert (Hy : 1 * 2 ^ j < 2 ^ 53) by (pose proof (Z.pow_pos_nonneg 2 j ltac:(lia) Hj); nia).
    rewrite <- Z.pow_add_r in Hx by lia. apply Z.pow_le_mono_r_iff in Hx; [|lia|lia].
    rewrite Z.mul_1_l in Hy. apply Z.pow_lt_mono_r_iff in Hy; [|lia|lia]. lia. }
  destruct (round_near false (m * mc) (e + ec) k ltac:(lia) Hdig ltac:(lia)) as (m' & e' & q & R1 & R2 & R3 & R4).
  rewrite R1. set (f := e + ec + k) in *. assert (Hf : f <= -12) by (unfold f; lia).
  set (B := 2 ^ (- f)).
  assert (HB : B * 2 ^ k = 2 ^ (- e) * 2 ^ j).
  { unfold B. rewrite <- !Z.pow_add_r by lia. f_equal. unfold f. lia. }
  assert (HB2 : 4096 <= B) by (unfold B; change 4096 with (2 ^ 12); apply Z.pow_le_mono_r; lia).
  assert (Hp2 : 0 < 2 ^ k) by (apply Z.pow_pos_nonneg; lia).
  assert (Hq0 : 0 <= q) by (rewrite <- R3; apply Z.mul_nonneg_nonneg; [lia|apply Z.pow_nonneg; lia]).
  exists q, B.
  cut (0 <= q /\ 4096 <= B /\ Z.even B = true /\ Z.abs (100 * q - r * c * B) <= 250 /\
    (r * 2 ^ (- e) <= 100 * Zpos m -> forall h, 100 * h <= r * c * B -> h <= q)).
  { intros Hcut. split; [|exact Hcut]. destruct Hcut as (_ & _ & _ & Hab & _).
    apply (round_trunc m' e' f B q R2 ltac:(lia) eq_refl R3). split; [apply Z.div_pos; lia|].
    apply Z.div_le_upper_bound; [lia|]. assert (r * c * B <= 99 * 2 ^ 40 * B) by (apply Z.mul_le_mono_nonneg_r; [lia|]; apply Z.mul_le_mono_nonneg; lia). lia. }
  split; [exact Hq0|]. split; [exact HB2|]. split.
  { unfold B. rewrite Z.even_pow by lia. reflexivity. }
  rewrite Pos2Z.inj_mul in R4. rewrite <- H1 in R4.
  assert (HM : Zpos m * (c * 2 ^ j) * 100 - r * c * B * 2 ^ k = c * 2 ^ j * (100 * Zpos m - r * 2 ^ (- e))).
  { replace (r * c * B * 2 ^ k) with (r * c * (B * 2 ^ k)) by ring. rewrite HB. ring. }
  assert (Hcj : 0 < c * 2 ^ j < 2 ^ 53) by (rewrite H1; lia).
  assert (Hk53 : 2 ^ 53 <= 2 * 2 ^ k). { change (2 * 2 ^ k) with (2 ^ 1 * 2 ^ k). rewrite <- Z.pow_add_r by lia. apply Z.pow_le_mono_r; lia. }
  split.
  - set (K := 2 ^ k) in *. set (D := 100 * Zpos m - r * 2 ^ (- e)) in *. set (X := c * 2 ^ j) in *.
    assert (HD : Z.abs (X * D) <= X * 100) by (rewrite Z.abs_mul, (Z.abs_eq X) by lia; apply Z.mul_le_mono_nonneg_l; lia).
    assert (Hall : Z.abs (100 * (q * K) - r * c * B * K) <= 250 * K) by lia.
    replace (100 * (q * K) - r * c * B * K) with ((100 * q - r * c * B) * K) in Hall by ring.
    rewrite Z.abs_mul, (Z.abs_eq K) in Hall by lia. apply Z.mul_le_mono_pos_r in Hall; [exact Hall|exact Hp2].
  - intros Hge h Hh. set (K := 2 ^ k) in *. set (D := 100 * Zpos m - r * 2 ^ (- e)) in *. set (X := c * 2 ^ j) in *.
    assert (HXD : 0 <= X * D) by (apply Z.mul_nonneg_nonneg; unfold D; lia).
    assert (H100 : 100 * (h * K) <= r * c * B * K) by (replace (100 * (h * K)) with (100 * h * K) by ring; apply Z.mul_le_mono_nonneg_r; lia).
    assert (Hhm : h * K <= Zpos m * X) by lia.
    assert (2 * (q * K) >= 2 * (h * K) - K) by lia. nia.
Qed.

(** percentiles [p] for which the double (100 - p) / 100.0 is not below the quotient *)
Definition exact_percentiles : list Z :=
  [32; 33; 34; 35; 36; 37; 44; 45; 46; 47; 48; 49; 50; 54; 55; 56; 60; 61; 62; 66; 67; 68; 72; 73; 74; 75; 77; 78; 80; 81; 83; 84;
   86; 87; 89; 90; 92; 93; 95; 96; 98; 99; 100].
Lemma exact_not_below p : In p exact_percentiles -> 1 <= 100 - p <= 99 -> not_below (100 - p) = true.
Proof.
  intros Hi Hp. assert (H : forallb (fun p => (p =? 100) || not_below (100 - p)) exact_percentiles = true) by (vm_compute; reflexivity).
  rewrite forallb_forall in H. apply H in Hi. destruct (p =? 100) eqn:E100; [lia|exact Hi].
Qed.
Lemma nofZ_nonzero64 z : 0 < z <= 2 ^ 53 -> neqb (Num := B64) (nofZ (Num := B64) z) (n0 (NN := B64)) = false.
Proof.
  intros Hz. destruct (units_finite 0 z (f_ofZ z)) as (m & e & _ & H & _); [left; reflexivity|unfold in_range; lia|lia|lia|].
  cbn [neqb nofZ B64 n0]. rewrite H. assert (Hs : (z <? 0) = false) by lia. rewrite Hs. reflexivity.
Qed.
(** at most a half away, and exact if the threshold is not below the quotient *)
Lemma trimmed64 percent c : 1 <= percent <= 100 -> 1 <= c <= 2 ^ 40 ->
  exists t, trimmed (NN := B64) percent c = Ok t /\ 0 <= t /\
    2 * c * (100 - percent) - 100 <= 200 * t <= 2 * c * (100 - percent) + 100 /\
    (In percent exact_percentiles -> set_aside percent c t).
Proof.
  intros Hp Hc. unfold trimmed. set (r := 100 - percent) in *.
  change (ntrunc (Num := B64) _) with (f_trunc (f_round 0 (SFmul prec emax (threshold r) (f_ofZ c)))).
  destruct (Z.eq_dec r 0) as [Hr|Hr].
  { rewrite Hr. exists 0. split.
    - change (threshold 0) with (S754_zero false).
      destruct (units_finite 0 c (f_ofZ c)) as (m & e & _ & H & _); [left; reflexivity|unfold in_range; lia|lia|lia|]. rewrite H. reflexivity.
    - split; [lia|]. split; [lia|]. intros _. unfold set_aside. fold r. lia. }
  assert (Hn : near_hundredths r = true).
  { pose proof near_all as H. rewrite forallb_forall in H. apply H, in_upto. unfold r. change (Z.of_nat 99) with 99. lia. }
  assert (Ht : exists m e, threshold r = S754_finite false m e).
  { unfold near_hundredths in Hn. destruct (threshold r) as [| | |[] m e]; try discriminate. eauto. }
  destruct Ht as (m & e & Ht).
  destruct (product r c m e ltac:(unfold r in *; lia) Ht Hn Hc) as (q & B & H1 & H2 & H3 & H4 & H5 & H6).
  exists ((2 * q + B) / (2 * B)). split; [exact H1|]. clear H1.
  pose proof (Z.div_mod (2 * q + B) (2 * B) ltac:(lia)) as Hd. pose proof (Z.mod_pos_bound (2 * q + B) (2 * B) ltac:(lia)) as Hm.
  set (t := (2 * q + B) / (2 * B)) in *. set (w := (2 * q + B) mod (2 * B)) in *.
  split; [unfold t; apply Z.div_pos; lia|].
  assert (Hup : 200 * t <= 2 * c * r + 100).
  { (* 100*(2B t) <= 200 q + 100 B <= 2 r c B + 500 + 100 B *) 
    assert (B * (200 * t) <= B * (2 * c * r + 100) + 500) by lia. nia. }
  assert (Hlo : 2 * c * r - 100 <= 200 * t).
  { assert (B * (2 * c * r - 100) < B * (200 * t) + 500 + 1) by lia. nia. }
  split; [split; [exact Hlo|exact Hup]|]. intros Hx. unfold set_aside. fold r. split; [|exact Hup].
  destruct (Z.eq_dec (200 * t) (2 * c * r - 100)) as [Heq|]; [|lia]. exfalso.
  pose proof (exact_not_below percent Hx ltac:(unfold r in *; lia)) as Hb. fold r in Hb. unfold not_below in Hb. rewrite Ht in Hb. apply Z.leb_le in Hb.
  apply Z.even_spec in H4 as (b & Hb2).
  (* r c B = (100 t + 50) B = 100 (t B + b) *)
  assert (Hrc : r * c * B = 100 * (t * B + b)). { assert (r * c = 100 * t + 50) as -> by lia. rewrite Hb2. ring. }
  pose proof (H6 Hb (t * B + b) ltac:(lia)) as Hq. lia.
Qed.
Lemma trimmed64_range percent c : 26 <= percent <= 100 -> 2 <= c <= 2 ^ 40 ->
  exists t, trimmed (NN := B64) percent c = Ok t /\ 0 <= t < c /\ neqb (Num := B64) (nofZ (Num := B64) (c - t)) (n0 (NN := B64)) = false /\
    (In percent exact_percentiles -> set_aside percent c t).
Proof.
  intros Hp Hc. destruct (trimmed64 percent c ltac:(lia) ltac:(lia)) as (t & H1 & H2 & H3 & H4).
  assert (t < c) by nia. exists t. split; [exact H1|]. split; [lia|]. split; [apply nofZ_nonzero64; lia|exact H4].
Qed.
