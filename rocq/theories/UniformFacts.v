(** The uniform reservoir is uniform: every offered value is kept in the same
    fraction of the possible outcomes of the random draws. *)
From Verif Require Import Base Num Env Stats SampleFacts.
Notation length := List.length.

(** ** Specification *)
(** All lists of [k] draws, the i-th (from 0) in 0 .. m + i: what remains of
    [randint(1, maxint) % count] for the values after the first [m]. *)
Fixpoint outcomes (m k : nat) : list (list Z) :=
  match k with
  | O => [[]]
  | S k' => flat_map (fun ds => map (fun r => ds ++ [Z.of_nat r]) (seq 0 (m + S k'))) (outcomes m k')
  end.
Lemma outcomes_spec m k ds : ds ∈ outcomes m k <->
  length ds = k /\ forall i d, ds !! i = Some d -> (0 <= d < Z.of_nat (m + S i))%Z.
Proof.
  revert ds. induction k as [|k IH]; intros ds; cbn [outcomes].
  - rewrite elem_of_list_singleton. split.
    + intros ->. split; [reflexivity|]. intros i d H. discriminate.
    + intros [H _]. destruct ds; [reflexivity|discriminate].
  - rewrite elem_of_list_In, in_flat_map. split.
    + intros (ds' & H1 & H2). apply elem_of_list_In, IH in H1 as [H1 H1']. apply in_map_iff in H2 as (r & <- & Hr).
      apply in_seq in Hr. rewrite app_length. split; [cbn; lia|]. intros i d Hd.
      apply lookup_app_Some in Hd as [Hd|[Hl Hd]]; [apply (H1' _ _ Hd)|].
      destruct (i - length ds')%nat as [|j] eqn:Ej; [|destruct j; discriminate]. cbn in Hd. injection Hd as <-.
      replace i with k by lia. lia.
    + intros [Hl Hd]. induction ds as [|d ds' _] using rev_ind; [discriminate|].
      rewrite app_length in Hl. cbn in Hl. exists ds'. split.
      * apply elem_of_list_In, IH. split; [lia|]. intros i d' H. apply (Hd i). apply lookup_app_l_Some. exact H.
      * apply in_map_iff. specialize (Hd k d). rewrite lookup_app_r in Hd by lia.
        replace (k - length ds')%nat with 0%nat in Hd by lia. specialize (Hd eq_refl).
        exists (Z.to_nat d). split; [do 2 f_equal; lia|]. apply in_seq. lia.
Qed.
Lemma outcomes_nodup m k : NoDup (outcomes m k).
Proof.
  induction k as [|k IH]; cbn [outcomes]; [apply NoDup_singleton|].
  induction IH as [|ds l Hd Hl IH']; cbn [flat_map]; [constructor|].
  apply NoDup_app. split; [|split; [|exact IH']].
  - apply NoDup_ListNoDup, FinFun.Injective_map_NoDup; [|apply seq_NoDup].
    intros a b H. apply app_inv_head in H. injection H. lia.
  - intros x Hx Hx'. apply elem_of_list_In, in_map_iff in Hx as (r & <- & _).
    apply elem_of_list_In, in_flat_map in Hx' as (ds' & Hds & Hx'). apply in_map_iff in Hx' as (r' & Heq & _).
    apply app_inj_tail in Heq as [-> _]. apply Hd. apply elem_of_list_In. exact Hds.
Qed.
Lemma outcomes_some m k : length (outcomes m k) <> 0%nat.
Proof.
  assert (H : replicate k 0%Z ∈ outcomes m k).
  { apply outcomes_spec. rewrite replicate_length. split; [reflexivity|]. intros i d Hd. apply lookup_replicate in Hd as [-> _]. lia. }
  destruct (outcomes m k); [inversion H|discriminate].
Qed.
Lemma outcomes_distinct m k : NoDup (outcomes m k) /\ length (outcomes m k) <> 0%nat.
Proof. split; [apply outcomes_nodup|apply outcomes_some]. Qed.

Section uniform.
Context `{NN : Num}.
Notation num := (@Num.num NN).
Context (ED : EqDecision num).

(** [E], except that the random numbers are [ds] *)
Definition with_draws (E : env) (ds : list Z) : env :=
  @Env NN (e_clock E) (fun n => nth n ds 0%Z) (e_table E) (e_ord E) (e_ord_perm E).
Definition sample_of (E : env) (size : nat) (vs : list num) (ds : list Z) : list num :=
  us_get (fst (urun (with_draws E ds) (map UUpdate vs) (us_new size) world0)).
(** in how many outcomes [v] ends up in the sample *)
Definition times_kept (E : env) (size : nat) (vs : list num) (v : num) : nat :=
  length (filter (fun ds => v ∈ sample_of E size vs ds) (outcomes size (length vs - size))).

Lemma offered_updates vs : offered (map UUpdate vs) = vs.
Proof.
  unfold offered. induction vs as [|v vs IH] using rev_ind; [reflexivity|].
  rewrite map_app, fold_left_app, IH. reflexivity.
Qed.
Lemma urun_snoc E vs v u w :
  urun E (map UUpdate (vs ++ [v])) u w =
  let '(u', w') := urun E (map UUpdate vs) u w in us_update E u' v w'.
Proof.
  revert u w. induction vs as [|x vs IH]; intros u w; cbn [map app urun].
  - destruct (us_update E u v w). reflexivity.
  - destruct (us_update E u x w) as [u' w']. apply IH.
Qed.
Lemma run_inv E size vs w : us_inv size vs (fst (urun E (map UUpdate vs) (us_new size) w)).
Proof.
  pose proof (urun_inv E size (map UUpdate vs) [] (us_new size) w (us_zero_inv size _ (replicate_length _ _))) as H.
  change (fold_left _ _ _) with (offered (map UUpdate vs)) in H. rewrite offered_updates in H. exact H.
Qed.
Lemma run_rnd E size vs : w_rnd (snd (urun E (map UUpdate vs) (us_new size) world0)) = (length vs - size)%nat.
Proof.
  induction vs as [|v vs IH] using rev_ind; [reflexivity|]. rewrite urun_snoc.
  pose proof (run_inv E size vs world0) as (H1 & H2 & _).
  destruct (urun E (map UUpdate vs) (us_new size) world0) as [u w]. cbn [fst snd] in *.
  unfold us_update. rewrite H1, H2, app_length. cbn [length].
  destruct (Z.leb_spec (Z.of_nat (length vs) + 1) (Z.of_nat size)); cbn [snd]; [lia|].
  unfold randint. destruct (_ <? _)%Z; cbn [snd w_rnd]; lia.
Qed.
Lemma run_agree E E' size vs : (forall i, (i < length vs - size)%nat -> e_randint E i = e_randint E' i) ->
  urun E (map UUpdate vs) (us_new size) world0 = urun E' (map UUpdate vs) (us_new size) world0.
Proof.
  induction vs as [|v vs IH] using rev_ind; [reflexivity|]. intros H. rewrite !urun_snoc.
  rewrite app_length in H. cbn [length] in H.
  rewrite <- IH by (intros i Hi; apply H; lia).
  pose proof (run_inv E size vs world0) as (H1 & H2 & _). pose proof (run_rnd E size vs) as H3.
  destruct (urun E (map UUpdate vs) (us_new size) world0) as [u w]. cbn [fst snd] in *.
  unfold us_update. rewrite H1, H2.
  destruct (Z.leb_spec (Z.of_nat (length vs) + 1) (Z.of_nat size)); [reflexivity|].
  unfold randint. rewrite H3, (H (length vs - size)%nat) by lia. reflexivity.
Qed.

Lemma sample_step E size vs x ds r : (size <= length vs)%nat -> length ds = (length vs - size)%nat -> (r < length vs + 1)%nat ->
  sample_of E size (vs ++ [x]) (ds ++ [Z.of_nat r]) =
  (if (r <? size)%nat then <[r := x]> (sample_of E size vs ds) else sample_of E size vs ds).
Proof.
  intros Hs Hl Hr. unfold sample_of. rewrite urun_snoc.
  rewrite (run_agree (with_draws E (ds ++ [Z.of_nat r])) (with_draws E ds)).
  2:{ intros i Hi. cbn. rewrite app_nth1 by lia. reflexivity. }
  pose proof (run_inv (with_draws E ds) size vs world0) as (H1 & H2 & _). pose proof (run_rnd (with_draws E ds) size vs) as H3.
  destruct (urun (with_draws E ds) (map UUpdate vs) (us_new size) world0) as [u w]. cbn [fst snd] in *.
  assert (Hg : us_get u = us_values u).
  { unfold us_get, us_size. rewrite H1, H2. destruct (Z.gtb_spec (Z.of_nat (length vs)) (Z.of_nat size)); apply take_ge; lia. }
  rewrite Hg. unfold us_update. rewrite H1, H2.
  destruct (Z.leb_spec (Z.of_nat (length vs) + 1) (Z.of_nat size)); [lia|].
  unfold randint. rewrite H3. cbn [e_randint with_draws]. rewrite app_nth2 by lia.
  replace (length vs - size - length ds)%nat with 0%nat by lia. cbn [nth].
  rewrite Z.mod_small by lia.
  destruct (Z.ltb_spec (Z.of_nat r) (Z.of_nat size)); destruct (Nat.ltb_spec r size); try lia; cbn [fst].
  - rewrite Nat2Z.id. unfold us_get, us_size. cbn [us_values us_count]. rewrite insert_length, H1.
    destruct (Z.gtb_spec (Z.of_nat (length vs) + 1) (Z.of_nat size)); apply take_ge; rewrite insert_length; lia.
  - unfold us_get, us_size. cbn [us_values us_count]. rewrite H1.
    destruct (Z.gtb_spec (Z.of_nat (length vs) + 1) (Z.of_nat size)); apply take_ge; lia.
Qed.

Lemma sample_facts E size vs ds : (size <= length vs)%nat -> NoDup vs ->
  length (sample_of E size vs ds) = size /\ NoDup (sample_of E size vs ds) /\
  (forall v, v ∈ sample_of E size vs ds -> v ∈ vs) /\ (length vs = size -> sample_of E size vs ds = vs).
Proof.
  intros Hs Hn. pose proof (run_inv (with_draws E ds) size vs world0) as Hi. pose proof (us_get_length _ _ _ Hi) as Hl.
  destruct Hi as (_ & _ & (js & Hj & Hf) & H4). fold (sample_of E size vs ds) in *.
  split; [lia|]. split; [|split].
  - apply NoDup_alt. intros i j x Hx Hy.
    destruct (Forall2_lookup_r _ _ _ _ _ Hf Hx) as (a & Ha & Hax). destruct (Forall2_lookup_r _ _ _ _ _ Hf Hy) as (b & Hb & Hbx).
    assert (a = b) by exact (NoDup_lookup _ _ _ _ Hn Hax Hbx). subst b. exact (NoDup_lookup _ _ _ _ Hj Ha Hb).
  - intros v Hv. apply elem_of_list_lookup in Hv as [i Hi].
    destruct (Forall2_lookup_r _ _ _ _ _ Hf Hi) as (a & _ & Ha). eapply elem_of_list_lookup_2. exact Ha.
  - intros H. apply H4. lia.
Qed.

(** counting *)
Lemma list_filter_all {A} (P : A -> Prop) {PD : forall x, Decision (P x)} (l : list A) : (forall x, x ∈ l -> P x) -> filter P l = l.
Proof.
  induction l as [|x l IH]; intros H; [reflexivity|]. rewrite filter_cons, IH by (intros; apply H; right; assumption).
  destruct (decide (P x)) as [|n]; [reflexivity|]. exfalso. apply n, H. left.
Qed.
Lemma list_filter_none {A} (P : A -> Prop) {PD : forall x, Decision (P x)} (l : list A) : (forall x, x ∈ l -> ~ P x) -> filter P l = [].
Proof.
  induction l as [|x l IH]; intros H; [reflexivity|]. rewrite filter_cons, IH by (intros; apply H; right; assumption).
  destruct (decide (P x)) as [n|]; [|reflexivity]. exfalso. eapply H; [|exact n]. left.
Qed.
Lemma count_flat_map {A C} (P : C -> Prop) {PD : forall x, Decision (P x)} (Q : A -> Prop) {QD : forall x, Decision (Q x)}
    (f : A -> list C) (l : list A) (c : nat) :
  (forall a, a ∈ l -> length (filter P (f a)) = if decide (Q a) then c else 0%nat) ->
  length (filter P (flat_map f l)) = (c * length (filter Q l))%nat.
Proof.
  induction l as [|a l IH]; intros H; cbn [flat_map]; [rewrite !filter_nil; cbn; lia|].
  rewrite filter_app, app_length, IH by (intros; apply H; right; assumption). rewrite (H a) by left.
  rewrite filter_cons. destruct (decide (Q a)); cbn [length]; lia.
Qed.
Lemma count_map {A C} (P : C -> Prop) {PD : forall x, Decision (P x)} (f : A -> C) l :
  length (filter P (map f l)) = length (filter (fun a => P (f a)) l).
Proof. induction l as [|a l IH]; [reflexivity|]. cbn [map]. rewrite !filter_cons. destruct (decide (P (f a))); cbn [length]; lia. Qed.
Lemma count_below n size : (size <= n)%nat -> length (filter (fun r => (r < size)%nat) (seq 0 n)) = size.
Proof.
  intros H. replace n with (size + (n - size))%nat by lia. rewrite seq_app, filter_app, app_length.
  assert (H1 : filter (fun r => (r < size)%nat) (seq 0 size) = seq 0 size).
  { apply list_filter_all. intros x Hx. apply elem_of_list_In, in_seq in Hx. lia. }
  assert (H2 : filter (fun r => (r < size)%nat) (seq (0 + size) (n - size)) = []).
  { apply list_filter_none. intros x Hx. apply elem_of_list_In, in_seq in Hx. lia. }
  rewrite H1, H2, seq_length. cbn. lia.
Qed.
Lemma count_other n p : (p < n)%nat -> length (filter (fun r => r <> p) (seq 0 n)) = (n - 1)%nat.
Proof.
  intros H. replace n with (p + (1 + (n - p - 1)))%nat at 1 by lia. rewrite !seq_app, !filter_app, !app_length.
  assert (H1 : filter (fun r => r <> p) (seq 0 p) = seq 0 p).
  { apply list_filter_all. intros x Hx. apply elem_of_list_In, in_seq in Hx. lia. }
  assert (H2 : filter (fun r => r <> p) (seq (0 + p + 1) (n - p - 1)) = seq (0 + p + 1) (n - p - 1)).
  { apply list_filter_all. intros x Hx. apply elem_of_list_In, in_seq in Hx. lia. }
  rewrite H1, H2. cbn [seq]. rewrite filter_cons, filter_nil. destruct (decide (0 + p <> p)%nat); [lia|]. rewrite !seq_length. cbn. lia.
Qed.
Lemma filter_iff_length {A} (P Q : A -> Prop) {PD : forall x, Decision (P x)} {QD : forall x, Decision (Q x)} (l : list A) :
  (forall x, x ∈ l -> P x <-> Q x) -> length (filter P l) = length (filter Q l).
Proof.
  induction l as [|x l IH]; intros H; [reflexivity|]. rewrite !filter_cons.
  assert (HH := H x ltac:(left)). specialize (IH ltac:(intros; apply H; right; assumption)).
  destruct (decide (P x)), (decide (Q x)); cbn [length]; try lia; tauto.
Qed.

Lemma uniform E size vs v : NoDup vs -> v ∈ vs -> (0 < size <= length vs)%nat ->
  (times_kept E size vs v * length vs = size * length (outcomes size (length vs - size)))%nat.
Proof.
  intros Hn Hv [Hs0 Hs]. remember (length vs - size)%nat as k eqn:Ek.
  revert vs v Hn Hv Hs Ek. induction k as [|k IH]; intros vs v Hn Hv Hs Ek; unfold times_kept; rewrite <- Ek.
  - cbn [outcomes length]. rewrite filter_cons, filter_nil.
    destruct (sample_facts E size vs [] Hs Hn) as (_ & _ & _ & H). rewrite H by lia.
    destruct (decide (v ∈ vs)); [cbn; lia|contradiction].
  - induction vs as [|x vs _] using rev_ind; [inversion Hv|].
    rewrite app_length in *. cbn [length] in *.
    assert (Hlen : length vs = (size + k)%nat) by lia.
    assert (Hk : k = (length vs - size)%nat) by lia.
    apply NoDup_app in Hn as (Hn & Hx & _).
    assert (Hxv : x ∉ vs) by (intros HH; apply (Hx _ HH); left).
    cbn [outcomes].
    (* the number of all outcomes *)
    assert (Htot : length (flat_map (fun ds => map (fun r => ds ++ [Z.of_nat r]) (seq 0 (size + S k))) (outcomes size k)) =
                   ((size + S k) * length (outcomes size k))%nat).
    { clear. induction (outcomes size k) as [|ds l IH]; cbn [flat_map length]; [lia|].
      rewrite app_length, map_length, seq_length, IH. lia. }
    rewrite Htot. destruct (decide (v = x)) as [->|Hne].
    + (* the last value: kept for [size] of the last draws *)
      rewrite (count_flat_map _ (fun _ => True) _ _ size).
      * replace (length (filter (fun _ : list Z => True) (outcomes size k))) with (length (outcomes size k)); [nia|].
        f_equal. symmetry. apply list_filter_all. auto.
      * intros ds Hds. apply outcomes_spec in Hds as [Hdl _]. destruct (decide True) as [_|[]]; [|exact I].
        rewrite count_map. rewrite (filter_iff_length _ (fun r => (r < size)%nat)); [apply count_below; lia|].
        intros r Hr. apply elem_of_list_In, in_seq in Hr. rewrite sample_step by lia.
        destruct (sample_facts E size vs ds ltac:(lia) Hn) as (S1 & S2 & S3 & _).
        destruct (Nat.ltb_spec r size); split; intros; try lia.
        -- apply elem_of_list_lookup. exists r. apply list_lookup_insert. lia.
        -- exfalso. apply Hxv, S3. assumption.
    + assert (Hvv : v ∈ vs). { apply elem_of_app in Hv as [Hv|Hv]; [exact Hv|]. apply elem_of_list_singleton in Hv. contradiction. }
      specialize (IH vs v Hn Hvv ltac:(lia) Hk). unfold times_kept in IH. rewrite <- Hk in IH.
      rewrite (count_flat_map _ (fun ds => v ∈ sample_of E size vs ds) _ _ (size + k)).
      * rewrite <- Hlen, Nat.mul_comm with (n := length vs), IH. nia.
      * intros ds Hds. apply outcomes_spec in Hds as [Hdl _]. rewrite count_map.
        destruct (sample_facts E size vs ds ltac:(lia) Hn) as (S1 & S2 & S3 & _).
        destruct (decide (v ∈ sample_of E size vs ds)) as [Hin|Hnin].
        -- apply elem_of_list_lookup in Hin as [p Hp]. pose proof (lookup_lt_Some _ _ _ Hp) as Hpl.
           rewrite (filter_iff_length _ (fun r => r <> p)); [rewrite count_other by lia; lia|].
           intros r Hr. apply elem_of_list_In, in_seq in Hr. rewrite sample_step by lia.
           destruct (Nat.ltb_spec r size) as [Hrs|Hrs]; split; intros H.
           ++ intros ->. apply elem_of_list_lookup in H as [q Hq]. apply list_lookup_insert_Some in Hq as [(-> & <- & _)|[Hq1 Hq2]].
              ** apply Hne. reflexivity.
              ** apply Hq1. exact (NoDup_lookup _ _ _ _ S2 Hp Hq2).
           ++ apply elem_of_list_lookup. exists p. rewrite list_lookup_insert_ne by exact H. exact Hp.
           ++ intros ->. lia.
           ++ eapply elem_of_list_lookup_2. exact Hp.
        -- change (length (filter (fun r => v ∈ sample_of E size (vs ++ [x]) (ds ++ [Z.of_nat r])) (seq 0 (size + S k))) = length (@nil nat)).
           f_equal. apply list_filter_none.
           intros r Hr Habs. apply elem_of_list_In, in_seq in Hr. rewrite sample_step in Habs by lia.
           destruct (Nat.ltb_spec r size); [|contradiction].
           apply elem_of_list_lookup in Habs as [q Hq]. apply list_lookup_insert_Some in Hq as [(_ & <- & _)|[_ Hq]]; [apply Hne; reflexivity|].
           apply Hnin. eapply elem_of_list_lookup_2. exact Hq.
Qed.
End uniform.
