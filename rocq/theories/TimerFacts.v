(** Sorting and the statistics of a flushed timer. *)
From Verif Require Import Base StrFacts Num Env Stats Glob Metrics Gen Processor.

(** numbers the order of which is total: everything but NaN *)
Class NumOrd (NN : Num) := {
  nok : num -> Prop;
  lt_asym : forall a b : num, nok a -> nok b -> nltb a b = true -> nltb b a = false;
  lt_negtrans : forall a b c : num, nok a -> nok b -> nok c ->
    nltb a b = false -> nltb b c = false -> nltb a c = false }.

Section sort.
Context `{NN : Num}.
(** not greater: what [sort] promises *)
Definition nle (a b : num) : Prop := nltb b a = false.
Definition ascending (l : list num) : Prop := StronglySorted nle l.

Lemma ninsert_perm x l : ninsert x l ≡ₚ x :: l.
Proof.
  induction l as [|y l IH]; cbn [ninsert]; [reflexivity|]. destruct (nltb x y); [reflexivity|].
  rewrite IH. apply Permutation_swap.
Qed.
Lemma nsort_acc l acc : fold_left (fun acc x => ninsert x acc) l acc ≡ₚ l ++ acc.
Proof.
  revert acc. induction l as [|x l IH]; intros acc; [reflexivity|]. cbn [fold_left]. rewrite IH, ninsert_perm.
  cbn [app]. symmetry. apply Permutation_middle.
Qed.
Lemma nsort_perm l : nsort l ≡ₚ l.
Proof. unfold nsort. rewrite nsort_acc, app_nil_r. reflexivity. Qed.
Lemma nsort_length l : length (nsort l) = length l.
Proof. rewrite nsort_perm. reflexivity. Qed.

Context {NO : NumOrd NN}.
Lemma ninsert_sorted x l : nok x -> Forall nok l -> ascending l -> ascending (ninsert x l).
Proof.
  intros Hx Hl. induction 1 as [|y l Hs IH Hy]; cbn [ninsert]; [repeat constructor|].
  inversion Hl as [|? ? Hny Hnl]; subst.
  destruct (nltb x y) eqn:Exy.
  - constructor; [constructor; assumption|]. constructor; [apply lt_asym; assumption|].
    assert (Hd : Forall (fun z => nok z /\ nle y z) l) by (apply Forall_and; auto).
    eapply Forall_impl; [exact Hd|]. intros z [Hz1 Hz2]. unfold nle in *.
    eapply lt_negtrans; [exact Hz1|exact Hny|exact Hx|exact Hz2|]. apply lt_asym; assumption.
  - constructor; [apply IH; assumption|]. rewrite ninsert_perm. constructor; [exact Exy|exact Hy].
Qed.
Lemma nsort_sorted l : Forall nok l -> ascending (nsort l).
Proof.
  intros Hl. unfold nsort. assert (Hg : forall acc, Forall nok acc -> ascending acc ->
    ascending (fold_left (fun acc x => ninsert x acc) l acc)).
  { induction Hl as [|x l Hx _ IH]; intros acc Ha Hs; cbn [fold_left]; [exact Hs|].
    apply IH; [rewrite ninsert_perm; constructor; assumption|apply ninsert_sorted; assumption]. }
  apply Hg; constructor.
Qed.
End sort.

Section stats_spec.
Context `{NN : Num}.
(** [t] durations are set aside: n*(100-percent)/100 rounded, a half going up *)
Definition set_aside (percent n t : Z) : Prop :=
  2 * n * (100 - percent) - 100 < 200 * t <= 2 * n * (100 - percent) + 100.
(** the statistics of the durations [ds] *)
Definition order_stats (percent : Z) (ds : list num) (lower mean upper tupper : num) (count : Z) : Prop :=
  exists (l : list num) t k,
    l ≡ₚ ds /\ ascending l /\ count = Z.of_nat (length ds) /\
    (if count =? 1 then t = 0 else set_aside percent count t) /\ Z.of_nat k = count - t /\ (1 <= k <= length ds)%nat /\
    l !! 0%nat = Some lower /\ l !! (length ds - 1)%nat = Some upper /\
    l !! (k - 1)%nat = Some tupper /\ mean = if count =? 1 then lower else ndiv (nsum (take k l)) (nofZ (Z.of_nat k)).

Lemma last_lookup_nth {A} (l : list A) : last l = l !! (length l - 1)%nat.
Proof. rewrite last_lookup. f_equal. lia. Qed.

Context {NO : NumOrd NN}.
Lemma timer_stats_spec percent ds t :
  ds <> [] -> Forall nok ds ->
  (2 <= Z.of_nat (length ds) -> trimmed percent (Z.of_nat (length ds)) = Ok t /\
     set_aside percent (Z.of_nat (length ds)) t /\ 0 <= t < Z.of_nat (length ds) /\
     neqb (nofZ (Z.of_nat (length ds) - t)) n0 = false) ->
  exists lower mean upper tupper, timer_stats percent ds = Ok (mean, upper, tupper, lower, Z.of_nat (length ds)) /\
    order_stats percent ds lower mean upper tupper (Z.of_nat (length ds)).
Proof.
  intros Hne Hok Ht. unfold timer_stats. rewrite nsort_length.
  pose proof (nsort_perm ds) as Hp. pose proof (nsort_sorted ds Hok) as Hs. pose proof (nsort_length ds) as Hl.
  set (l := nsort ds) in *.
  assert (Hlen : (1 <= length ds)%nat) by (destruct ds; [congruence|cbn; lia]).
  destruct (l !! 0%nat) as [lower|] eqn:E0; [|apply lookup_ge_None in E0; lia].
  destruct (last l) as [upper|] eqn:El.
  2:{ rewrite last_lookup_nth in El. apply lookup_ge_None in El. lia. }
  rewrite last_lookup_nth, Hl in El.
  destruct (Z.of_nat (length ds) >? 1) eqn:Ec.
  - destruct (Ht ltac:(lia)) as (Htr & Hsa & Hr & Hz). rewrite Htr.
    assert (Hslice : slice_to (Z.of_nat (length ds) - t) l = take (Z.to_nat (Z.of_nat (length ds) - t)) l).
    { unfold slice_to. destruct (_ <? 0) eqn:Eb; [lia|reflexivity]. }
    rewrite Hslice. set (k := Z.to_nat (Z.of_nat (length ds) - t)).
    destruct (last (take k l)) as [tu|] eqn:Et.
    2:{ rewrite last_lookup_nth in Et. apply lookup_ge_None in Et. rewrite take_length in Et. lia. }
    rewrite last_lookup_nth, take_length in Et.
    rewrite lookup_take in Et by lia. replace (k `min` length l - 1)%nat with (k - 1)%nat in Et by lia.
    unfold pydiv. rewrite Hz. eexists lower, _, upper, tu. split; [reflexivity|].
    exists l, t, k. rewrite (proj2 (Z.eqb_neq _ _)) by lia.
    refine (conj Hp (conj Hs (conj eq_refl (conj Hsa (conj _ (conj _ (conj E0 (conj El (conj Et _))))))))); [lia|lia|].
    do 2 f_equal. lia.
  - exists lower, lower, upper, upper. split; [reflexivity|].
    exists l, 0, 1%nat. replace (Z.of_nat (length ds)) with 1 by lia. cbn [Z.eqb Pos.eqb].
    assert (Hd : length ds = 1%nat) by lia. rewrite Hd in *. cbn [Nat.sub] in *.
    refine (conj Hp (conj Hs (conj _ (conj eq_refl (conj _ (conj _ (conj E0 (conj El (conj El _))))))))); [reflexivity|reflexivity|lia|reflexivity].
Qed.
End stats_spec.
