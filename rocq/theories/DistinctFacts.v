(** The probabilistic distinct counter. *)
From Verif Require Import Base Num Env Stats Glob Metrics.
Notation length := List.length.

(** ** trailing zero bits *)
(** [z] is the number of zero bits at the end of [n] *)
Definition trailing_zeros (n z : N) : Prop :=
  (n = 0 /\ z = 0)%N \/ (exists m, n = 2 ^ z * (2 * m + 1))%N.

Lemma zeros_loop_spec fuel n i c : (n <> 0)%N -> (c = i)%N -> (exists m, n = 2 ^ i * m)%N ->
  (N.size n <= i + N.of_nat fuel)%N -> (0 < fuel)%nat ->
  exists z, zeros_loop fuel n i c = Some z /\ exists m, (n = 2 ^ z * (2 * m + 1))%N.
Proof.
  revert i c. induction fuel as [|f IH]; intros i c Hn -> [m Hm] Hs Hf; [lia|]. cbn [zeros_loop].
  assert (Hsh : N.shiftr n i = m).
  { rewrite N.shiftr_div_pow2, Hm, N.mul_comm. apply N.div_mul. apply N.pow_nonzero. lia. }
  rewrite Hsh. destruct (N.eqb_spec m 0) as [->|Hm0]; [rewrite N.mul_0_r in Hm; contradiction|].
  destruct (N.odd m) eqn:Eo.
  - exists i. split; [reflexivity|]. apply N.odd_spec in Eo as [k ->]. exists k. exact Hm.
  - assert (He : N.even m = true) by (rewrite <- N.negb_odd, Eo; reflexivity). apply N.even_spec in He as [k ->].
    assert (Hk : n = (2 ^ (i + 1) * k)%N) by (rewrite N.pow_add_r; change (2 ^ 1)%N with 2%N; lia).
    assert (Hlt : (i + 1 < N.size n)%N).
    { rewrite N.size_log2 by exact Hn. assert (Hle : (2 ^ (i + 1) <= n)%N) by (rewrite Hk; nia).
      apply N.log2_le_mono in Hle. rewrite N.log2_pow2 in Hle by lia. lia. }
    apply IH; [exact Hn|reflexivity|exists k; exact Hk|lia|lia].
Qed.
Lemma size_nat_size n : N.of_nat (N.size_nat n) = N.size n.
Proof. destruct n as [|p]; [reflexivity|]. cbn [N.size_nat N.size]. induction p; cbn [Pos.size_nat Pos.size]; lia. Qed.
Lemma zeros_spec n : trailing_zeros n (zeros n).
Proof.
  unfold zeros. destruct (N.eq_dec n 0) as [->|Hn].
  - left. split; reflexivity.
  - right. destruct (zeros_loop_spec (S (N.size_nat n)) n 0 0 Hn eq_refl) as (z & -> & m & Hm).
    + exists n. rewrite N.pow_0_r. lia.
    + rewrite Nat2N.inj_succ, size_nat_size. lia.
    + lia.
    + exists m. exact Hm.
Qed.
Lemma hash_32bit table data : (sbox_hash table data < 2 ^ 32)%N.
Proof.
  unfold sbox_hash. assert (H : forall v, (v < 2 ^ 32)%N -> (fold_left (fun value c => N.land (N.lxor value (table c) * 3) (N.ones 32)) data v < 2 ^ 32)%N).
  { induction data as [|c data IH]; intros v Hv; cbn [fold_left]; [exact Hv|]. apply IH. rewrite N.land_ones. apply N.mod_lt. discriminate. }
  apply H. reflexivity.
Qed.

Section distinct.
Context `{NN : Num}.
Notation num := (@Num.num NN).

(** ** The counter as a function of what was added *)
(** adding a list of (time, item) *)
Definition adds (hist : list (num * str)) (d : distinct) : distinct :=
  fold_left (fun d ti => distinct_add d (fst ti) (snd ti)) hist d.

(** a counter with [nh] hash functions (at least one) and [nb] buckets each *)
Definition well_formed (nh nb : nat) (d : distinct) : Prop :=
  length (ds_hashes d) = nh /\ length (ds_buckets d) = nh /\ ds_nb d = nb /\
  Forall (fun row => length row = nb) (ds_buckets d).

Lemma draw_tables_len E n w : length (fst (draw_tables E n w)) = n.
Proof.
  revert w. induction n as [|n IH]; intros w; [reflexivity|]. cbn [draw_tables].
  destruct (draw_table E w) as [t w1]. specialize (IH w1). destruct (draw_tables E n w1) as [ts w2]. cbn in *. lia.
Qed.
Lemma new_wf E nh nb w : well_formed nh nb (fst (distinct_new E nh nb w)).
Proof.
  unfold distinct_new. pose proof (draw_tables_len E nh w) as H. destruct (draw_tables E nh w) as [hs w']. cbn in *.
  split; [exact H|]. split; [apply replicate_length|]. split; [reflexivity|]. apply Forall_replicate, replicate_length.
Qed.
Lemma add_wf nh nb d t item : well_formed nh nb d -> well_formed nh nb (distinct_add d t item).
Proof.
  intros (H1 & H2 & H3 & H4). unfold distinct_add. split; [exact H1|]. cbn [ds_buckets ds_nb].
  split; [rewrite zip_with_length; lia|]. split; [exact H3|].
  apply Forall_lookup. intros i row Hrow. apply lookup_zip_with_Some in Hrow as (h & r & -> & _ & Hr).
  rewrite insert_length. rewrite Forall_lookup in H4. apply (H4 _ _ Hr).
Qed.
Lemma adds_wf nh nb hist d : well_formed nh nb d -> well_formed nh nb (adds hist d).
Proof. revert d. induction hist as [|ti hist IH]; intros d H; [exact H|]. apply IH, add_wf, H. Qed.

Lemma bucket_range nb h item : (0 < nb)%nat -> (bucket_of nb h item < nb)%nat.
Proof. unfold bucket_of. lia. Qed.

(** adding an item writes exactly one bucket of each row, in range *)
Lemma add_touches nh nb d t item i row : well_formed nh nb d -> (0 < nb)%nat -> ds_buckets d !! i = Some row ->
  exists h z, ds_hashes d !! i = Some h /\ trailing_zeros (sbox_hash h item) z /\
    let j := Nat.min (nb - 1) (N.to_nat z) in
    (j < nb)%nat /\ length row = nb /\
    exists row', ds_buckets (distinct_add d t item) !! i = Some row' /\ row' !! j = Some t /\
      forall j', j' <> j -> row' !! j' = row !! j'.
Proof.
  intros (H1 & H2 & H3 & H4) Hnb Hi. pose proof (lookup_lt_Some _ _ _ Hi) as Hil.
  destruct (lookup_lt_is_Some_2 (ds_hashes d) i ltac:(lia)) as [h Hh].
  exists h, (zeros (sbox_hash h item)). split; [exact Hh|]. split; [apply zeros_spec|]. cbn zeta.
  rewrite Forall_lookup in H4. pose proof (H4 _ _ Hi) as Hrl. split; [lia|]. split; [exact Hrl|].
  exists (<[bucket_of nb h item := t]> row). split.
  - unfold distinct_add. cbn [ds_buckets]. rewrite lookup_zip_with, Hh, Hi. cbn. rewrite H3. reflexivity.
  - split; [apply list_lookup_insert; rewrite Hrl; apply bucket_range; exact Hnb|].
    intros j' Hj. apply list_lookup_insert_ne. unfold bucket_of. congruence.
Qed.

(** ** What the estimate depends on *)
Section windows.
(** [nleb] transitive; times of additions do not go back *)
Context (le_trans : forall a b c : num, nleb a b = true -> nleb b c = true -> nleb a c = true).
Definition in_order (hist : list (num * str)) : Prop := StronglySorted (fun a b => nleb (fst a) (fst b) = true) hist.
(** items added after [since] *)
Definition in_window (since : num) (hist : list (num * str)) (item : str) : Prop :=
  exists t, (t, item) ∈ hist /\ nleb t since = false.

(** bucket [j] of row [i] is newer than [since] iff an item of the window hits it *)
Definition hit (d : distinct) (since : num) (i j : nat) : Prop :=
  exists row b, ds_buckets d !! i = Some row /\ row !! j = Some b /\ nleb b since = false.

Lemma adds_hashes hist d : ds_hashes (adds hist d) = ds_hashes d /\ ds_nb (adds hist d) = ds_nb d.
Proof. revert d. induction hist as [|ti hist IH]; intros d; [auto|]. destruct (IH (distinct_add d (fst ti) (snd ti))) as [H1 H2]. auto. Qed.

Lemma in_order_snoc hist ti : in_order (hist ++ [ti]) -> in_order hist /\ forall x, x ∈ hist -> nleb (fst x) (fst ti) = true.
Proof.
  induction hist as [|y hist IH]; intros H; [split; [constructor|intros x Hx; inversion Hx]|].
  cbn in H. apply StronglySorted_inv in H as [H1 H2]. destruct (IH H1) as [H3 H4]. split.
  - constructor; [exact H3|]. apply Forall_app in H2. apply H2.
  - intros x Hx. apply elem_of_cons in Hx as [->|Hx]; [|apply H4; exact Hx].
    apply Forall_app in H2 as [_ H2]. inversion H2. assumption.
Qed.

Lemma adds_snoc hist ti d : adds (hist ++ [ti]) d = distinct_add (adds hist d) (fst ti) (snd ti).
Proof. unfold adds. rewrite fold_left_app. reflexivity. Qed.

Lemma hit_iff nh nb d0 hist since i j : well_formed nh nb d0 -> (0 < nb)%nat ->
  (forall row b, row ∈ ds_buckets d0 -> b ∈ row -> nleb b since = true) ->
  in_order hist -> (i < nh)%nat -> (j < nb)%nat ->
  hit (adds hist d0) since i j <->
  exists item h, in_window since hist item /\ ds_hashes d0 !! i = Some h /\ bucket_of nb h item = j.
Proof.
  intros Hwf Hnb H0 Hord Hi Hj. induction hist as [|[t item] hist IH] using rev_ind.
  - split.
    + intros (row & b & Hr & Hb & Hf). cbn in Hr. rewrite (H0 row b) in Hf; [discriminate|eapply elem_of_list_lookup_2; eauto|eapply elem_of_list_lookup_2; eauto].
    + intros (item & h & (t & Hin & _) & _). inversion Hin.
  - apply in_order_snoc in Hord as [Hord Hlast]. specialize (IH Hord). rewrite adds_snoc. cbn [fst snd].
    pose proof (adds_wf nh nb hist d0 Hwf) as Hwf'. destruct Hwf as (W1 & W2 & W3 & W4).
    destruct (lookup_lt_is_Some_2 (ds_buckets (adds hist d0)) i) as [row Hrow]; [destruct Hwf' as (_ & -> & _); exact Hi|].
    destruct (lookup_lt_is_Some_2 (ds_hashes d0) i) as [h Hh]; [lia|].
    destruct Hwf' as (V1 & V2 & V3 & V4). rewrite Forall_lookup in V4. pose proof (V4 _ _ Hrow) as Hrl.
    assert (Hnew : ds_buckets (distinct_add (adds hist d0) t item) !! i = Some (<[bucket_of nb h item := t]> row)).
    { unfold distinct_add. cbn [ds_buckets]. rewrite lookup_zip_with. destruct (adds_hashes hist d0) as [-> ->]. rewrite Hh, Hrow. cbn. rewrite W3. reflexivity. }
    split.
    + intros (row' & b & Hr & Hb & Hf). rewrite Hnew in Hr. injection Hr as <-.
      destruct (decide (j = bucket_of nb h item)) as [->|Hne].
      * rewrite list_lookup_insert in Hb by lia. injection Hb as <-. exists item, h. split; [|auto].
        exists t. split; [apply elem_of_app; right; left|exact Hf].
      * rewrite list_lookup_insert_ne in Hb by congruence.
        destruct (proj1 IH) as (it & h' & (t' & Hin & Ht') & Hh' & Hbk); [exists row, b; auto|].
        exists it, h'. split; [|auto]. exists t'. split; [apply elem_of_app; left; exact Hin|exact Ht'].
    + intros (it & h' & (t' & Hin & Ht') & Hh' & Hbk). rewrite Hh in Hh'. injection Hh' as <-.
      apply elem_of_app in Hin as [Hin|Hin].
      * destruct (decide (j = bucket_of nb h item)) as [->|Hne].
        -- eexists _, t. split; [exact Hnew|]. split; [apply list_lookup_insert; lia|].
           apply not_true_is_false. intros Hle. rewrite (le_trans t' t since (Hlast _ Hin) Hle) in Ht'. discriminate.
        -- destruct (proj2 IH) as (row' & b & Hr & Hb & Hf). { exists it, h. split; [exists t'; auto|auto]. }
           rewrite Hrow in Hr. injection Hr as <-. eexists _, b. split; [exact Hnew|]. split; [|exact Hf].
           rewrite list_lookup_insert_ne by congruence. exact Hb.
      * apply elem_of_list_singleton in Hin. injection Hin as -> ->.
        eexists _, t. split; [exact Hnew|]. split; [|exact Ht']. rewrite <- Hbk. apply list_lookup_insert. rewrite Hbk. lia.
Qed.

Lemma least0_mono row row' since since' : length row = length row' ->
  (forall j b, row !! j = Some b -> nleb b since = false -> exists b', row' !! j = Some b' /\ nleb b' since' = false) ->
  (0 <= least0 since row <= least0 since' row')%Z.
Proof.
  revert row'. induction row as [|b row IH]; intros [|b' row'] Hl H; try discriminate; cbn [least0]; [lia|].
  assert (IHr : (0 <= least0 since row <= least0 since' row')%Z).
  { apply IH; [cbn in Hl; lia|]. intros j x Hx. apply (H (S j) x Hx). }
  destruct (nleb b since) eqn:Eb.
  - destruct (nleb b' since'); lia.
  - destruct (H 0%nat b eq_refl Eb) as (x & Hx & Hf). cbn in Hx. injection Hx as <-. rewrite Hf. lia.
Qed.

Lemma total_mono_rows (rows rows' : list (list num)) since since' :
  Forall2 (fun r r' => (0 <= least0 since r <= least0 since' r')%Z) rows rows' ->
  (0 <= fold_right (fun row acc => least0 since row + acc) 0 rows <= fold_right (fun row acc => least0 since' row + acc) 0 rows')%Z.
Proof. induction 1; cbn [fold_right]; lia. Qed.

(** the count of leading buckets is monotone in the set of items of the window *)
Lemma total_mono nh nb d0 h1 h2 s1 s2 : well_formed nh nb d0 -> (0 < nb)%nat ->
  (forall row b, row ∈ ds_buckets d0 -> b ∈ row -> nleb b s1 = true /\ nleb b s2 = true) ->
  in_order h1 -> in_order h2 ->
  (forall item, in_window s1 h1 item -> in_window s2 h2 item) ->
  (0 <= distinct_total (adds h1 d0) s1 <= distinct_total (adds h2 d0) s2)%Z.
Proof.
  intros Hwf Hnb H0 Ho1 Ho2 Hw. apply total_mono_rows.
  pose proof (adds_wf nh nb h1 d0 Hwf) as (_ & A2 & _ & A4). pose proof (adds_wf nh nb h2 d0 Hwf) as (_ & B2 & _ & B4).
  rewrite Forall_lookup in A4, B4.
  apply Forall2_same_length_lookup_2; [lia|]. intros i r r' Hr Hr'.
  pose proof (lookup_lt_Some _ _ _ Hr) as Hi. apply least0_mono.
  - rewrite (A4 _ _ Hr), (B4 _ _ Hr'). reflexivity.
  - intros j b Hb Hf. pose proof (lookup_lt_Some _ _ _ Hb) as Hj. rewrite (A4 _ _ Hr) in Hj.
    assert (Hhit : hit (adds h2 d0) s2 i j).
    { apply (hit_iff nh nb); auto; [intros; eapply H0; eauto|lia|].
      destruct (proj1 (hit_iff nh nb d0 h1 s1 i j Hwf Hnb ltac:(intros; eapply H0; eauto) Ho1 ltac:(lia) Hj)) as (it & h & Hin & Hh & Hbk).
      { exists r, b. auto. }
      exists it, h. auto. }
    destruct Hhit as (row & b' & Hrow & Hb' & Hf'). rewrite Hr' in Hrow. injection Hrow as <-. exists b'. auto.
Qed.
End windows.
End distinct.

(** ** The estimate *)
(** [e] is the integer part of 2^(total/n) / 0.77351 *)
Definition floor_of_estimate (total n e : Z) : Prop :=
  ((77351 * e) ^ n <= 2 ^ total * 100000 ^ n /\ 2 ^ total * 100000 ^ n < (77351 * (e + 1)) ^ n /\ 0 <= e)%Z.

Lemma est_bits_spec total n b k : (0 <= k)%Z -> est_ok total n k = true -> est_ok total n (k + 2 ^ Z.of_nat b) = false ->
  let e := est_bits total n b k in (0 <= e)%Z /\ est_ok total n e = true /\ est_ok total n (e + 1) = false.
Proof.
  revert k. induction b as [|b IH]; intros k Hk H1 H2; cbn [est_bits].
  - change (2 ^ Z.of_nat 0)%Z with 1%Z in H2. auto.
  - destruct (est_ok total n (k + 2 ^ Z.of_nat b)) eqn:E.
    + apply IH; [lia|exact E|]. rewrite <- H2. f_equal. rewrite Nat2Z.inj_succ, Z.pow_succ_r by lia. lia.
    + apply IH; auto.
Qed.
Lemma estimate_spec total n : (0 <= total)%Z -> (0 < n)%Z -> floor_of_estimate total n (estimate total n).
Proof.
  intros Ht Hn. unfold estimate.
  destruct (est_bits_spec total n (Z.to_nat (total / n + 2)) 0) as (H0 & H1 & H2).
  - lia.
  - unfold est_ok. apply Z.leb_le. rewrite Z.mul_0_r, Z.pow_0_l by lia. apply Z.mul_nonneg_nonneg; apply Z.pow_nonneg; lia.
  - unfold est_ok. apply Z.leb_gt. rewrite Z.add_0_l. pose proof (Z.div_pos total n Ht Hn) as Hd.
    rewrite Z2Nat.id by lia. rewrite Z.pow_add_r by lia. change (2 ^ 2)%Z with 4%Z.
    replace (77351 * (2 ^ (total / n) * 4))%Z with (2 ^ (total / n) * 309404)%Z by ring.
    rewrite Z.pow_mul_l. rewrite <- Z.pow_mul_r by lia.
    assert (Hm : (total < total / n * n + n)%Z).
    { pose proof (Z.div_mod total n ltac:(lia)). pose proof (Z.mod_pos_bound total n Hn). lia. }
    assert (Hp : (2 ^ total < 2 ^ (total / n * n) * 2 ^ n)%Z).
    { rewrite <- Z.pow_add_r by nia. apply Z.pow_lt_mono_r; lia. }
    assert (Hq : (2 ^ n * 100000 ^ n <= 309404 ^ n)%Z).
    { rewrite <- Z.pow_mul_l. apply Z.pow_le_mono_l. lia. }
    assert (Hpos : (0 < 100000 ^ n)%Z) by (apply Z.pow_pos_nonneg; lia).
    assert (Hpos2 : (0 < 2 ^ (total / n * n))%Z) by (apply Z.pow_pos_nonneg; nia).
    set (A := (2 ^ total)%Z) in *. set (P := (2 ^ (total / n * n))%Z) in *. set (D := (2 ^ n)%Z) in *.
    set (X := (100000 ^ n)%Z) in *. set (Y := (309404 ^ n)%Z) in *. clearbody A P D X Y. nia.
  - unfold est_ok in H1, H2. apply Z.leb_le in H1. apply Z.leb_gt in H2. split; [exact H1|]. split; [exact H2|exact H0].
Qed.
Lemma estimate_unique_mono t t' n e e' : (0 < n)%Z -> (0 <= t <= t')%Z ->
  floor_of_estimate t n e -> floor_of_estimate t' n e' -> (e <= e')%Z.
Proof.
  intros Hn Ht (H1 & _ & H0) (_ & H2 & H3). apply Z.nlt_ge. intros Hlt.
  assert (Ha : ((77351 * (e' + 1)) ^ n <= (77351 * e) ^ n)%Z) by (apply Z.pow_le_mono_l; lia).
  assert (Hb : (2 ^ t <= 2 ^ t')%Z) by (apply Z.pow_le_mono_r; lia).
  assert (Hpos : (0 < 100000 ^ n)%Z) by (apply Z.pow_pos_nonneg; lia).
  set (X := (100000 ^ n)%Z) in *. clearbody X. nia.
Qed.
Lemma estimate_zero n : (0 < n)%Z -> estimate 0 n = 1%Z.
Proof.
  intros Hn. pose proof (estimate_spec 0 n ltac:(lia) Hn) as H.
  assert (H1 : floor_of_estimate 0 n 1).
  { split; [|split; [|lia]].
    - rewrite Z.pow_0_r, Z.mul_1_l. apply Z.pow_le_mono_l. lia.
    - rewrite Z.pow_0_r, Z.mul_1_l. apply Z.pow_lt_mono_l; lia. }
  apply Z.le_antisymm; eapply (estimate_unique_mono 0 0 n); eauto; lia.
Qed.
Lemma estimate_pos t n : (0 <= t)%Z -> (0 < n)%Z -> (1 <= estimate t n)%Z.
Proof.
  intros Ht Hn. rewrite <- (estimate_zero n Hn).
  eapply (estimate_unique_mono 0 t n); [exact Hn|lia|apply estimate_spec; lia|apply estimate_spec; lia].
Qed.

Section counts.
Context `{NN : Num}.
Notation num := (@Num.num NN).
Context (le_trans : forall a b c : num, nleb a b = true -> nleb b c = true -> nleb a c = true).
Context (zero_refl : nleb n0 n0 = true).

Lemma new_rows E nh nb w row b : row ∈ ds_buckets (fst (distinct_new E nh nb w)) -> b ∈ row -> b = n0.
Proof.
  unfold distinct_new. destruct (draw_tables E nh w) as [hs w']. cbn. intros Hr Hb.
  apply elem_of_replicate in Hr as [-> _]. apply elem_of_replicate in Hb as [-> _]. reflexivity.
Qed.

(** the estimate, after any additions in order, is monotone in the set of items
    of the window; hence it depends on that set only *)
Lemma count_mono E nh nb w h1 h2 s1 s2 : (0 < nh)%nat -> (0 < nb)%nat ->
  let d0 := fst (distinct_new E nh nb w) in
  nleb n0 s1 = true -> nleb n0 s2 = true -> in_order h1 -> in_order h2 ->
  (forall item, in_window s1 h1 item -> in_window s2 h2 item) ->
  exists c1 c2, distinct_count (adds h1 d0) s1 = Ok c1 /\ distinct_count (adds h2 d0) s2 = Ok c2 /\ (1 <= c1 <= c2)%Z.
Proof.
  intros Hnh Hnb d0 Hs1 Hs2 Ho1 Ho2 Hw.
  pose proof (new_wf E nh nb w) as Hwf. fold d0 in Hwf.
  pose proof (total_mono le_trans nh nb d0 h1 h2 s1 s2 Hwf Hnb) as Ht.
  assert (Hd : (0 <= distinct_total (adds h1 d0) s1 <= distinct_total (adds h2 d0) s2)%Z).
  { apply Ht; auto. intros row b Hr Hb. rewrite (new_rows E nh nb w row b Hr Hb). auto. }
  assert (Hc : forall h s, distinct_count (adds h d0) s = Ok (estimate (distinct_total (adds h d0) s) (Z.of_nat nh))).
  { intros h s. unfold distinct_count. destruct (adds_hashes h d0) as [-> _]. destruct Hwf as (W1 & _).
    destruct (ds_hashes d0) eqn:E0; [cbn in W1; lia|]. rewrite W1. reflexivity. }
  eexists _, _. split; [apply Hc|]. split; [apply Hc|]. split; [apply estimate_pos; lia|].
  eapply (estimate_unique_mono _ _ (Z.of_nat nh)); [lia|exact Hd|apply estimate_spec; lia|apply estimate_spec; lia].
Qed.

Lemma count_set E nh nb w h1 h2 s1 s2 : (0 < nh)%nat -> (0 < nb)%nat ->
  let d0 := fst (distinct_new E nh nb w) in
  nleb n0 s1 = true -> nleb n0 s2 = true -> in_order h1 -> in_order h2 ->
  (forall item, in_window s1 h1 item <-> in_window s2 h2 item) ->
  distinct_count (adds h1 d0) s1 = distinct_count (adds h2 d0) s2.
Proof.
  intros Hnh Hnb d0 Hs1 Hs2 Ho1 Ho2 Hw.
  destruct (count_mono E nh nb w h1 h2 s1 s2) as (c1 & c2 & E1 & E2 & H12); auto; [intros; apply Hw; assumption|].
  destruct (count_mono E nh nb w h2 h1 s2 s1) as (c2' & c1' & E2' & E1' & H21); auto; [intros; apply Hw; assumption|].
  fold d0 in E1, E2, E1', E2'. rewrite E1, E2 in *. injection E1' as ->. injection E2' as ->. f_equal. lia.
Qed.

(** an empty window is estimated as 1 *)
Lemma count_empty E nh nb w h s : (0 < nh)%nat -> (0 < nb)%nat ->
  let d0 := fst (distinct_new E nh nb w) in
  nleb n0 s = true -> in_order h -> (forall item, ~ in_window s h item) ->
  distinct_count (adds h d0) s = Ok 1%Z.
Proof.
  intros Hnh Hnb d0 Hs Ho Hw.
  transitivity (distinct_count (adds [] d0) n0).
  - apply (count_set E nh nb w h [] s n0); auto; [constructor|].
    intros item. split; [intros H; destruct (Hw _ H)|]. intros (t & Hin & _). inversion Hin.
  - unfold adds. cbn [fold_left]. unfold distinct_count. pose proof (new_wf E nh nb w) as (W1 & _).
    fold d0 in W1 |- *. destruct (ds_hashes d0) eqn:E0; [cbn in W1; lia|]. rewrite W1.
    replace (distinct_total d0 n0) with 0%Z; [rewrite estimate_zero by lia; reflexivity|].
    unfold distinct_total, d0, distinct_new. destruct (draw_tables E nh w) as [hs w']. cbn [fst ds_buckets]. clear - zero_refl Hnb.
    induction nh as [|n IH]; [reflexivity|]. cbn [replicate fold_right]. rewrite <- IH. destruct nb; [lia|]. cbn [replicate least0]. rewrite zero_refl. reflexivity.
Qed.
End counts.
