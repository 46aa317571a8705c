(** Percentiles and histogram bins, exact arithmetic. *)
From Verif Require Import Base Num NumFacts Env Stats TimerFacts XQFacts SampleFacts VarianceFacts.
From Coq Require Import QArith Qcanon Qround Lqa.
Open Scope Z_scope.

(** ** Specification: the value at a (fractional, one based) position of an
    ascending list, by linear interpolation *)
Inductive at_position (l : list Qc) (x r : Qc) : Prop :=
| ap_first : (x < QcZ 1)%Qc -> l !! 0%nat = Some r -> at_position l x r
| ap_last : (QcZ 1 <= x)%Qc -> (QcZ (Z.of_nat (length l)) <= x)%Qc -> last l = Some r -> at_position l x r
| ap_between (i : nat) a b : (x < QcZ (Z.of_nat (length l)))%Qc ->
    (1 <= i)%nat -> (QcZ (Z.of_nat i) <= x)%Qc -> (x < QcZ (Z.of_nat i + 1))%Qc ->
    l !! (i - 1)%nat = Some a -> l !! i = Some b -> r = (a + (x - QcZ (Z.of_nat i)) * (b - a))%Qc ->
    at_position l x r.
Definition rising (l : list Qc) : Prop := StronglySorted Qcle l.

Lemma rising_lookup l i j a b : rising l -> (i <= j)%nat -> l !! i = Some a -> l !! j = Some b -> (a <= b)%Qc.
Proof.
  intros Hs. revert i j. induction Hs as [|x l Hs IH Hx]; intros i j Hij Ha Hb; [discriminate|].
  destruct i as [|i], j as [|j]; cbn in *; try lia.
  - injection Ha as <-. injection Hb as <-. apply Qcle_refl.
  - injection Ha as <-. rewrite Forall_forall in Hx. apply Hx. eapply elem_of_list_lookup_2; eauto.
  - apply (IH i j); auto; lia.
Qed.
Lemma at_position_between l x r : at_position l x r -> rising l ->
  exists a b i j, l !! i = Some a /\ l !! j = Some b /\ (a <= r /\ r <= b)%Qc /\ (i <= j)%nat /\
    (i = 0%nat \/ (QcZ (Z.of_nat i + 1) <= x)%Qc) /\ (j = (length l - 1)%nat \/ (x < QcZ (Z.of_nat j + 1))%Qc).
Proof.
  intros H Hs. destruct H as [H1 H2|H1 H2 H3|i a b H0 H1 H2 H3 H4 H5 H6].
  - exists r, r, 0%nat, 0%nat. repeat split; auto; try apply Qcle_refl; try lia.
  - rewrite last_lookup_nth in H3. exists r, r, (length l - 1)%nat, (length l - 1)%nat.
    repeat split; auto; try apply Qcle_refl. right.
    pose proof (lookup_lt_Some _ _ _ H3). replace (Z.of_nat (length l - 1) + 1) with (Z.of_nat (length l)) by lia. exact H2.
  - exists a, b, (i - 1)%nat, i. pose proof (rising_lookup l (i - 1) i a b Hs ltac:(lia) H4 H5) as Hab.
    split; [exact H4|]. split; [exact H5|]. split; [|split; [lia|split]].
    + subst r. rewrite QcZ_add, QcZ_1 in H3. set (z := QcZ (Z.of_nat i)) in *. clearbody z. clear - Hab H2 H3.
      split; qc_nra.
    + right. replace (Z.of_nat (i - 1) + 1) with (Z.of_nat i) by lia. exact H2.
    + right. exact H3.
Qed.
Lemma at_position_bounds l x r a b : at_position l x r -> rising l -> l !! 0%nat = Some a -> last l = Some b -> (a <= r /\ r <= b)%Qc.
Proof.
  intros H Hs Ha Hb. rewrite last_lookup_nth in Hb.
  destruct (at_position_between l x r H Hs) as (c & d & i & j & Hc & Hd & [Hcr Hrd] & Hij & _).
  pose proof (lookup_lt_Some _ _ _ Hc). pose proof (lookup_lt_Some _ _ _ Hd).
  split; eapply Qcle_trans; [|exact Hcr|exact Hrd|].
  - exact (rising_lookup l 0 i a c Hs ltac:(lia) Ha Hc).
  - exact (rising_lookup l j (length l - 1) d b Hs ltac:(lia) Hd Hb).
Qed.
Lemma at_position_mono l x y r s : at_position l x r -> at_position l y s -> rising l -> (x <= y)%Qc -> (r <= s)%Qc.
Proof.
  intros Hx Hy Hs Hxy. inversion Hx as [H1 H2|H1 H2 H3|i a b H0 H1 H2 H3 H4 H5 H6].
  - (* r is the first *)
    destruct (at_position_between l y s Hy Hs) as (c & d & k & j & Hc & Hd & [Hcr Hrd] & Hij & _).
    eapply Qcle_trans; [|exact Hcr]. exact (rising_lookup l 0 k r c Hs ltac:(lia) H2 Hc).
  - (* r is the last *)
    inversion Hy as [G1 G2|G1 G2 G3|k c d G0 G1 G2 G3 G4 G5 G6].
    + exfalso. eapply (Qcle_not_lt _ _ H1). eapply Qcle_lt_trans; eauto.
    + assert (r = s) by congruence. subst. apply Qcle_refl.
    + exfalso. eapply (Qcle_not_lt _ _ H2). eapply Qcle_lt_trans; eauto.
  - inversion Hy as [G1 G2|G1 G2 G3|k c d G0 G1 G2 G3 G4 G5 G6].
    + exfalso. assert (HH : (QcZ 1 <= QcZ (Z.of_nat i))%Qc) by (apply QcZ_le; lia).
      clear - HH H2 G1 Hxy. qc_lra.
    + destruct (at_position_between l x r Hx Hs) as (c & d & i' & j & Hc & Hd & [Hcr Hrd] & Hij & _).
      eapply Qcle_trans; [exact Hrd|]. rewrite last_lookup_nth in G3. pose proof (lookup_lt_Some _ _ _ Hd).
      exact (rising_lookup l j (length l - 1) d s Hs ltac:(lia) Hd G3).
    + assert (Hik : (i <= k)%nat).
      { destruct (Nat.le_gt_cases i k) as [|Hgt]; [assumption|]. exfalso.
        assert (HH : (QcZ (Z.of_nat k + 1) <= QcZ (Z.of_nat i))%Qc) by (apply QcZ_le; lia).
        clear - HH H2 G3 Hxy. qc_lra. }
      destruct (decide (i = k)) as [<-|Hne].
      * assert (a = c) by congruence. assert (b = d) by congruence. subst c d r s.
        pose proof (rising_lookup l (i - 1) i a b Hs ltac:(lia) H4 H5) as Hab.
        set (z := QcZ (Z.of_nat i)) in *. clearbody z. clear - Hab Hxy. qc_nra.
      * pose proof (rising_lookup l (i - 1) i a b Hs ltac:(lia) H4 H5) as Hab.
        pose proof (rising_lookup l (k - 1) k c d Hs ltac:(lia) G4 G5) as Hcd.
        pose proof (rising_lookup l i (k - 1) b c Hs ltac:(lia) H5 G4) as Hbc.
        subst r s. rewrite QcZ_add, QcZ_1 in H3.
        set (z := QcZ (Z.of_nat i)) in *. set (z' := QcZ (Z.of_nat k)) in *. clearbody z z'. clear - Hab Hcd Hbc H2 H3 G2.
        assert (L : (a + (x - z) * (b - a) <= b)%Qc) by qc_nra.
        assert (U : (c <= c + (y - z') * (d - c))%Qc) by qc_nra.
        eapply Qcle_trans; [exact L|]. eapply Qcle_trans; [exact Hbc|exact U].
Qed.

(** ** the code *)
Lemma Qctrunc_floor q : (0 <= q)%Qc -> Qctrunc q = Qcfloor q.
Proof.
  intros H. unfold Qctrunc, Qcfloor, Qfloor. destruct (this q) as [n d] eqn:E. cbn. apply Z.quot_div_nonneg; [|lia].
  unfold Qcle in H. rewrite E in H. change (this 0%Qc) with 0%Q in H. unfold Qle in H. cbn [Qnum Qden] in H. lia.
Qed.

Lemma percentile_of_len `{NN : Num} values p n : Z.of_nat (length values) = n ->
  percentile_of values p =
  let pos := nmul p (nofZ (n + 1)) in
  if nltb pos (nofZ 1) then match values !! 0%nat with Some v => Ok v | None => Exn IndexError end
  else if nleb (nofZ n) pos then match last values with Some v => Ok v | None => Exn IndexError end
  else match ntrunc pos with
       | Exn e => Exn e
       | Ok i => match values !! Z.to_nat (i - 1), values !! Z.to_nat i with
                 | Some lower, Some upper => Ok (nadd lower (nmul (nsub pos (nfloor pos)) (nsub upper lower)))
                 | _, _ => Exn IndexError
                 end
       end.
Proof. intros <-. reflexivity. Qed.

Section xq.
Context (sq : Qc -> Qc).
Lemma percentile_spec (l : list Qc) p : l <> [] ->
  exists r, percentile_of (NN := XQ sq) (fins l) (Fin p) = Ok (Fin r) /\
    at_position l (p * QcZ (Z.of_nat (length l) + 1))%Qc r.
Proof.
  intros Hne.
  assert (Hlen : length (fins l) = length l) by apply map_length.
  rewrite (percentile_of_len (NN := XQ sq) _ _ _ (f_equal Z.of_nat Hlen)).
  set (n := Z.of_nat (length l)). cbn zeta. 
  cbn [nmul nofZ XQ xmul nltb xltb nleb]. set (x := (p * QcZ (n + 1))%Qc).
  destruct (Qc_ltb x (QcZ 1)) eqn:E1.
  - apply Qc_ltb_lt in E1. destruct l as [|r l]; [contradiction|]. exists r. split; [reflexivity|]. apply ap_first; auto.
  - apply Qc_ltb_ge in E1. unfold xleb. cbn [xltb xeqb].
    destruct (Qc_ltb (QcZ n) x || Qc_eqb (QcZ n) x) eqn:E2.
    + assert (Hge : (QcZ n <= x)%Qc).
      { apply orb_true_iff in E2 as [E2|E2]; [apply Qc_ltb_lt in E2; apply Qclt_le_weak; exact E2|apply Qc_eqb_eq in E2; rewrite E2; apply Qcle_refl]. }
      destruct (last l) as [r|] eqn:El; [|apply last_None in El; contradiction].
      exists r. split.
      * assert (Hfl : last (fins l) = Some (Fin r)).
        { rewrite last_lookup_nth, Hlen. unfold fins. rewrite list_lookup_fmap. rewrite <- last_lookup_nth, El. reflexivity. }
        change (@last (@Num.num (XQ sq)) (fins l) = Some (Fin r)) in Hfl. rewrite Hfl. reflexivity.
      * apply ap_last; auto.
    + apply orb_false_iff in E2 as [E2 E3]. apply Qc_ltb_ge in E2.
      assert (Hlt : (x < QcZ n)%Qc).
      { destruct (Qcle_lt_or_eq _ _ E2) as [H|H]; [exact H|]. rewrite <- H in E3. rewrite (proj2 (Qc_eqb_eq _ _) eq_refl) in E3. discriminate. }
      cbn [ntrunc XQ xtrunc].
      assert (Hx0 : (0 <= x)%Qc) by (eapply Qcle_trans; [|exact E1]; rewrite <- QcZ_0; apply QcZ_le; lia).
      rewrite Qctrunc_floor by exact Hx0.
      destruct (proj1 (Qcfloor_spec x (Qcfloor x)) eq_refl) as [F1 F2]. 
      assert (Hi1 : 1 <= Qcfloor x).
      { assert (HH : (QcZ 1 < QcZ (Qcfloor x + 1))%Qc) by (eapply Qcle_lt_trans; eauto).
 apply (proj1 (QcZ_lt _ _)) in HH.
 lia. }
      assert (Hin : Qcfloor x < n).
      { assert (HH : (QcZ (Qcfloor x) < QcZ n)%Qc) by (eapply Qcle_lt_trans; eauto). apply (proj1 (QcZ_lt _ _)) in HH. exact HH. }
      set (i := Qcfloor x) in *.
      destruct (lookup_lt_is_Some_2 l (Z.to_nat (i - 1))) as [a Ha]; [unfold n in *; lia|].
      destruct (lookup_lt_is_Some_2 l (Z.to_nat i)) as [b Hb]; [unfold n in *; lia|].
      assert (Hfa : fins l !! Z.to_nat (i - 1) = Some (Fin a)) by (unfold fins; rewrite list_lookup_fmap, Ha; reflexivity).
      assert (Hfb : fins l !! Z.to_nat i = Some (Fin b)) by (unfold fins; rewrite list_lookup_fmap, Hb; reflexivity).
      eexists. split.
      * match goal with |- context [@lookup ?K ?A ?M ?I (Z.to_nat (i - 1)) ?v] => change (@lookup K A M I (Z.to_nat (i - 1)) v = Some (Fin a)) in Hfa end.
        match goal with |- context [@lookup ?K ?A ?M ?I (Z.to_nat i) ?v] => change (@lookup K A M I (Z.to_nat i) v = Some (Fin b)) in Hfb end.
        rewrite Hfa, Hfb. cbn [nadd nmul nsub nfloor XQ xadd xmul xsub xopp xfloor]. reflexivity.
      * apply ap_between with (i := Z.to_nat i) (a := a) (b := b); auto; try lia.
        -- rewrite Z2Nat.id by lia. exact F1.
        -- rewrite Z2Nat.id by lia. exact F2.
        -- rewrite <- Ha. f_equal. lia.
        -- rewrite Z2Nat.id by lia. fold i. unfold Qcminus. reflexivity.
Qed.

Lemma fins_ok l : Forall (nok (NumOrd := XQ_ord sq)) (fins l).
Proof. unfold fins. apply Forall_fmap, Forall_true. intros x. cbn. discriminate. Qed.
Lemma sorted_fins l : exists l', nsort (NN := XQ sq) (fins l) = fins l' /\ l' ≡ₚ l /\ rising l'.
Proof.
  pose proof (nsort_perm (NN := XQ sq) (fins l)) as HP.
  pose proof (nsort_sorted (NN := XQ sq) (NO := XQ_ord sq) (fins l) (fins_ok l)) as HS.
  unfold fins in HP. apply Permutation_map_inv in HP as (l' & Hl' & HP).
  exists l'. split; [exact Hl'|]. split; [symmetry; exact HP|].
  change (nsort (NN := XQ sq) (fins l) = map Fin l') in Hl'. rewrite Hl' in HS. clear - HS. unfold ascending in HS. induction l' as [|x l IH]; [constructor|].
  cbn [map] in HS. inversion HS as [|? ? H1 H2]; subst. constructor; [apply IH; exact H1|].
  apply Forall_forall. intros y Hy.
  pose proof (proj1 (List.Forall_forall _ _) H2 (Fin y) (in_map Fin l y (proj1 (elem_of_list_In _ _) Hy))) as H3.
  unfold nle in H3. cbn in H3. apply Qc_ltb_ge in H3. exact H3.
Qed.

Lemma map_res_ok {A C} (f : A -> res C) l k : Forall2 (fun x y => f x = Ok y) l k -> map_res f l = Ok k.
Proof. induction 1 as [|x y l k Hxy H IH]; cbn; [reflexivity|]. rewrite Hxy, IH. reflexivity. Qed.
Lemma picked_fins qs (kept : list (@Num.num (XQ sq))) : picked (NN := XQ sq) (fins qs) kept -> exists ks, kept = fins ks.
Proof.
  intros (js & _ & H). clear -H. induction H as [|j v js kept Hj H IH]; [exists []; reflexivity|].
  destruct IH as [ks ->]. unfold fins in Hj. rewrite list_lookup_fmap in Hj. destruct (qs !! j) as [q|]; [|discriminate].
  injection Hj as <-. exists (q :: ks). reflexivity.
Qed.

Lemma percentiles_exact (E : env (NN := XQ sq)) ops size w qs ps : (0 < size)%nat ->
  recorded (NN := XQ sq) ops = fins qs ->
  let h := fst (hrun (NN := XQ sq) E ops (h_new (us_new size)) w) in
  (qs = [] -> h_percentiles h (fins ps) = Ok (fins (map (fun _ => QcZ 0) ps))) /\
  (qs <> [] -> exists kept l rs, us_get (h_sample h) = fins kept /\ kept <> [] /\ l ≡ₚ kept /\ rising l /\
     h_percentiles h (fins ps) = Ok (fins rs) /\
     Forall2 (fun p r => at_position l (p * QcZ (Z.of_nat (length kept) + 1))%Qc r) ps rs).
Proof.
  intros Hsz Hr h. pose proof (hist_count (NN := XQ sq) E ops (us_new size) w) as Hc.
  pose proof (hist_sample (NN := XQ sq) E ops (us_new size) w size (replicate_length _ _)) as Hi.
  fold h in Hc, Hi. assert (Hlen : length (recorded (NN := XQ sq) ops) = length qs) by (rewrite Hr; apply map_length).
  pose proof (eq_trans Hc (f_equal Z.of_nat Hlen)) as Hc'. split.
  - intros ->. unfold h_percentiles. rewrite Hc'. cbn [length Z.of_nat Z.gtb]. cbn. f_equal. unfold fins. rewrite !map_map. reflexivity.
  - intros Hne. pose proof (us_get_length (NN := XQ sq) size _ _ Hi) as Hgl. destruct Hi as (_ & _ & Hpk & _).
    rewrite Hr in Hpk. destruct (picked_fins _ _ Hpk) as [kept Hk].
    assert (Hkl : length kept <> 0%nat).
    { assert (HH : length kept = Nat.min (length qs) size).
      { rewrite <- Hlen. rewrite <- Hgl. rewrite Hk. symmetry. apply map_length. }
      assert (Hq0 : length qs <> 0%nat) by (destruct qs; [contradiction|discriminate]). clear - HH Hq0 Hsz. lia. }
    destruct (sorted_fins kept) as (l & Hl & HP & Hrise).
    assert (Hl0 : l <> []) by (intros ->; apply Permutation_nil in HP; subst; cbn in Hkl; lia).
    assert (HR : exists rs, Forall2 (fun p r => percentile_of (NN := XQ sq) (fins l) (Fin p) = Ok (Fin r) /\
                              at_position l (p * QcZ (Z.of_nat (length l) + 1))%Qc r) ps rs).
    { clear - Hl0. induction ps as [|p ps [rs IH]]; [exists []; constructor|].
      destruct (percentile_spec l p Hl0) as (r & Hp). exists (r :: rs). constructor; auto. }
    destruct HR as [rs HR]. exists kept, l, rs. split; [exact Hk|]. split; [intros ->; cbn in Hkl; lia|]. split; [exact HP|].
    split; [exact Hrise|]. rewrite (Permutation_length HP) in HR. split.
    + unfold h_percentiles. rewrite Hc'. destruct (Z.gtb_spec (Z.of_nat (length qs)) 0) as [_|Hz]; [|destruct qs; [contradiction|cbn in Hz; lia]].
      rewrite Hk, Hl. apply map_res_ok. unfold fins. clear - HR. induction HR as [|p r ps rs [H1 _] HR IH]; cbn; constructor; auto.
    + eapply Forall2_impl; [exact HR|]. intros p r [_ H]. exact H.
Qed.
End xq.
