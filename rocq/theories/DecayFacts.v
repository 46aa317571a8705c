(** The exponentially decaying reservoir, over the reals. *)
From Verif Require Import Base Bisect BisectFacts Num RealNum Env Stats TimerFacts.
From Coq Require Import Reals Lra.
Open Scope R_scope.
Notation length := List.length.
Ltac rlra := change (@Num.num RN) with R in *; lra.

(** ** Specification *)
(** an offered value: the value, its timestamp and the random number drawn *)
Record offer := Offer { of_value : R; of_time : R; of_rnd : R }.
(** forward-decay priority of an offer relative to the landmark [L] *)
Definition priority (alpha L : R) (o : offer) : R := exp (alpha * (of_time o - L)) / of_rnd o.
(** [kept] are offers of highest priority among [all]: what is left out has no
    higher priority than anything kept *)
Definition top (alpha L : R) (all kept : list offer) : Prop :=
  exists rest, kept ++ rest ≡ₚ all /\
    forall k r, k ∈ kept -> r ∈ rest -> priority alpha L r <= priority alpha L k.

(** which offers are best does not depend on the landmark *)
Lemma priority_shift alpha L L' o : priority alpha L' o = priority alpha L o * exp (- alpha * (L' - L)).
Proof.
  unfold priority, Rdiv. replace (alpha * (of_time o - L')) with (alpha * (of_time o - L) + - alpha * (L' - L)) by ring.
  rewrite exp_plus. ring.
Qed.
Lemma top_landmark alpha L L' all kept : top alpha L all kept -> top alpha L' all kept.
Proof.
  intros (rest & HP & H). exists rest. split; [exact HP|]. intros k r Hk Hr.
  rewrite !(priority_shift alpha L L'). apply Rmult_le_compat_r; [apply Rlt_le, exp_pos|]. auto.
Qed.

(** ** the order of the stored pairs *)
Definition pair_le (a b : R * R) : Prop := fst a < fst b \/ (fst a = fst b /\ snd a <= snd b).
Lemma pair_le_trans a b c : pair_le a b -> pair_le b c -> pair_le a c.
Proof.
  destruct a as [a1 a2], b as [b1 b2], c as [c1 c2]. unfold pair_le. cbn [fst snd].
  intros [H1|[H1 H1']] [H2|[H2 H2']]; [left|left|left|right; split]; rlra.
Qed.
Lemma pair_ltb_true a b : pair_ltb (NN := RN) a b = true -> pair_le a b.
Proof.
  unfold pair_ltb, pair_le. cbn [neqb nltb RN]. destruct (Reqb' (fst a) (fst b)) eqn:E.
  - apply Reqb_true in E. rewrite Rltb_true. intros. right. split; rlra.
  - rewrite Rltb_true. auto.
Qed.
Lemma pair_ltb_false a b : pair_ltb (NN := RN) a b = false <-> pair_le b a.
Proof.
  unfold pair_ltb, pair_le. cbn [neqb nltb RN]. destruct (Reqb' (fst a) (fst b)) eqn:E.
  - apply Reqb_true in E. rewrite Rltb_false. split; [intros; right; split; rlra|]. intros [|[]]; rlra.
  - rewrite Rltb_false. assert (fst a <> fst b) by (intros HH; apply Reqb_true in HH; congruence).
    split; [intros; left; rlra|]. intros [|[]]; rlra.
Qed.
Notation psorted := (StronglySorted pair_le).
Lemma insort_r_perm x l : insort (NN := RN) x l ≡ₚ x :: l.
Proof. apply insort_by_perm. Qed.
Lemma insort_r_sorted x l : psorted l -> psorted (insort (NN := RN) x l).
Proof. apply insort_by_sorted; [exact pair_le_trans|exact pair_ltb_true|exact pair_ltb_false]. Qed.

Lemma fold_insort (f : R * R -> R * R) l acc : psorted acc ->
  psorted (fold_left (fun acc kv => insort (NN := RN) (f kv) acc) l acc) /\
  fold_left (fun acc kv => insort (NN := RN) (f kv) acc) l acc ≡ₚ map f l ++ acc.
Proof.
  revert acc. induction l as [|x l IH]; intros acc Hs; [split; [exact Hs|reflexivity]|]. cbn [fold_left map app].
  destruct (IH (insort (NN := RN) (f x) acc) (insort_r_sorted _ _ Hs)) as [H1 H2]. split; [exact H1|].
  rewrite H2, insort_r_perm. symmetry. apply Permutation_middle.
Qed.

Section decay.
Context (alpha : R) (size : Z).

(** offering values one after another; stops at an exception *)
Fixpoint offer_all (os : list offer) (s : esample (NN := RN)) : esample (NN := RN) * res unit :=
  match os with
  | [] => (s, Ok tt)
  | o :: os' => match es_update (NN := RN) exp alpha size s (of_value o) (of_time o) (of_rnd o) with
                | (s', Ok _) => offer_all os' s'
                | (s', Exn e) => (s', Exn e)
                end
  end.

Definition stored (L : R) (o : offer) : R * R := (priority alpha L o, of_value o).
Definition dinv (all : list offer) (s : esample (NN := RN)) : Prop :=
  psorted (es_values s) /\ es_count s = Z.min (Z.of_nat (length all)) size /\
  exists kept, es_values s ≡ₚ map (stored (es_start s)) kept /\ top alpha 0 all kept /\ Z.of_nat (length kept) = es_count s.

Lemma rescale_inv now all s : dinv all s -> dinv all (es_rescale (NN := RN) exp alpha now s).
Proof.
  intros (Hs & Hc & kept & HP & Ht & Hl). unfold es_rescale. cbn zeta.
  set (f := fun kv : R * R => (fst kv * exp ((IZR 0 - alpha) * (now - es_start s)), snd kv)).
  destruct (fold_insort f (es_values s) [] ltac:(constructor)) as [F1 F2]. rewrite app_nil_r in F2.
  split; [exact F1|]. split; [exact Hc|]. exists kept. split; [|split; [exact Ht|exact Hl]].
  cbn [es_values]. eapply Permutation_trans; [exact F2|]. eapply Permutation_trans; [apply Permutation_map; exact HP|]. rewrite map_map. apply Permutation_refl'. apply map_ext. intros o.
  unfold f, stored. cbn [fst snd es_start]. f_equal. rewrite (priority_shift alpha (es_start s) now).
  f_equal. f_equal. ring.
Qed.

Lemma update_inv all s o : (0 < size)%Z -> dinv all s -> of_rnd o <> 0 -> 
  exists s', es_update (NN := RN) exp alpha size s (of_value o) (of_time o) (of_rnd o) = (s', Ok tt) /\ dinv (all ++ [o]) s'.
Proof.
  intros Hsz Hd Hr. unfold es_update.
  set (s1 := if nleb (Num := RN) (es_next s) (of_time o) then es_rescale (NN := RN) exp alpha (of_time o) s else s).
  assert (Hd1 : dinv all s1).
  { unfold s1. destruct (nleb _ _); [apply rescale_inv; exact Hd|exact Hd]. }
  clearbody s1. clear Hd s. destruct Hd1 as (Hs & Hc & kept & HP & Ht & Hl).
  assert (Hdiv : pydiv (NN := RN) (exp (nmul (Num := RN) alpha (nsub (Num := RN) (of_time o) (es_start s1)))) (of_rnd o) = Ok (priority alpha (es_start s1) o)).
  { unfold pydiv. cbn [neqb n0 nofZ RN]. destruct (Reqb' (of_rnd o) (IZR 0)) eqn:E; [apply Reqb_true in E; contradiction|]. reflexivity. }
  rewrite Hdiv. set (p := priority alpha (es_start s1) o).
  destruct (Z.ltb_spec (es_count s1) size) as [Hlt|Hge].
  - eexists. split; [reflexivity|]. split; [|split].
    + cbn [es_values]. apply insort_r_sorted. exact Hs.
    + cbn [es_count]. rewrite app_length. cbn [length]. lia.
    + exists (o :: kept). split; [|split].
      * cbn [es_values es_start]. rewrite insort_r_perm, HP. reflexivity.
      * assert (Hall : length kept = length all) by lia.
        destruct Ht as (rest & HP1 & _). exists [].
        assert (rest = []).
        { pose proof (Permutation_length HP1) as HL. rewrite app_length in HL. destruct rest; [reflexivity|cbn in HL; lia]. }
        subst rest. rewrite app_nil_r in *. split; [|intros k r _ Hx; apply elem_of_nil in Hx; contradiction].
        rewrite HP1. apply Permutation_cons_append.
      * cbn [es_count length]. lia.
  - assert (Hsize : es_count s1 = size) by lia.
    destruct (es_values s1) as [|least vs] eqn:Ev.
    { exfalso. apply Permutation_length in HP. rewrite map_length in HP. cbn in HP. lia. }
    assert (Hleast : forall kv, kv ∈ least :: vs -> fst least <= fst kv).
    { intros kv Hkv. apply elem_of_cons in Hkv as [->|Hkv]; [rlra|]. pose proof (StronglySorted_inv Hs) as [_ Hx].
      rewrite Forall_forall in Hx. apply Hx in Hkv. unfold pair_le in Hkv. rlra. }
    destruct Ht as (rest & HP1 & Htop).
    assert (Hprio : forall L k r, k ∈ kept -> r ∈ rest -> priority alpha L r <= priority alpha L k).
    { intros L. destruct (top_landmark alpha 0 L all kept) as (rest' & HP' & H'); [exists rest; auto|].
      intros k r Hk Hrr. rewrite !(priority_shift alpha 0 L). apply Rmult_le_compat_r; [apply Rlt_le, exp_pos|]. auto. }
    cbn [nltb RN]. destruct (Rltb (fst least) p) eqn:Ep.
    + apply Rltb_true in Ep.
      (* the least entry is dropped *)
      assert (HIN : insort (NN := RN) (p, of_value o) (least :: vs) ≡ₚ least :: (p, of_value o) :: vs).
      { rewrite insort_r_perm. apply Permutation_swap. }
      assert (Hsort : psorted (insort (NN := RN) (p, of_value o) (least :: vs))) by (apply insort_r_sorted; exact Hs).
      remember (insort (NN := RN) (p, of_value o) (least :: vs)) as ins eqn:Ei.
      destruct ins as [|h t].
      { apply Permutation_nil in HIN. discriminate. }
      assert (Hh : h = least).
      { pose proof (StronglySorted_inv Hsort) as [_ Hht].
        assert (Hin : h ∈ (p, of_value o) :: least :: vs).
        { rewrite <- (insort_r_perm (p, of_value o) (least :: vs)). rewrite <- Ei. left. }
        assert (Hlin : least ∈ h :: t) by (rewrite HIN; left).
        apply elem_of_cons in Hlin as [<-|Hlin]; [reflexivity|]. rewrite Forall_forall in Hht. specialize (Hht _ Hlin).
        apply elem_of_cons in Hin as [->|Hin].
        - exfalso. unfold pair_le in Hht. cbn [fst snd] in Hht. rlra.
        - apply elem_of_cons in Hin as [->|Hin]; [reflexivity|].
          pose proof (StronglySorted_inv Hs) as [_ Hlv]. rewrite Forall_forall in Hlv. specialize (Hlv _ Hin).
          unfold pair_le in Hht, Hlv. destruct h as [h1 h2], least as [l1 l2]. cbn [fst snd] in *. f_equal; rlra. }
      subst h. assert (HT : t ≡ₚ (p, of_value o) :: vs) by (eapply Permutation_cons_inv; exact HIN).
      exists (ESample (NN := RN) t (es_count s1) (es_start s1) (es_next s1)).
      split; [do 2 f_equal; exact (f_equal tail (eq_sym Ei))|].
      (* the dropped offer *)
      assert (Hmap : exists k0 kept', kept ≡ₚ k0 :: kept' /\ stored (es_start s1) k0 = least /\ vs ≡ₚ map (stored (es_start s1)) kept').
      { assert (Hin : least ∈ map (stored (es_start s1)) kept) by (rewrite <- HP; left).
        apply elem_of_list_In, in_map_iff in Hin as (k0 & Hk0 & Hin). apply elem_of_list_In in Hin.
        apply elem_of_Permutation in Hin as (kept' & Hkp). exists k0, kept'. split; [exact Hkp|]. split; [exact Hk0|].
        rewrite Hkp in HP. cbn [map] in HP. rewrite Hk0 in HP. eapply Permutation_cons_inv. exact HP. }
      destruct Hmap as (k0 & kept' & Hkp & Hk0 & Hvs).
      split; [|split].
      * cbn [es_values]. exact (proj1 (StronglySorted_inv Hsort)).
      * cbn [es_count]. rewrite app_length. cbn [length]. lia.
      * exists (o :: kept'). split; [|split].
        -- cbn [es_values es_start]. rewrite HT, Hvs. reflexivity.
        -- apply (top_landmark alpha (es_start s1)). exists (k0 :: rest). split.
           ++ rewrite <- HP1, Hkp. rewrite (Permutation_app_comm (_ ++ rest) [o]). cbn. constructor. symmetry. apply Permutation_middle.
           ++ assert (Hk0p : priority alpha (es_start s1) k0 = fst least) by (rewrite <- Hk0; reflexivity).
              assert (Hk0in : k0 ∈ kept) by (rewrite Hkp; left).
              intros k r Hk Hrr. apply elem_of_cons in Hk as [->|Hk]; apply elem_of_cons in Hrr as [->|Hrr].
              ** fold p. rlra.
              ** fold p. specialize (Hprio (es_start s1) k0 r Hk0in Hrr). rlra.
              ** rewrite Hk0p. apply (Hleast (stored (es_start s1) k)). right. rewrite Hvs. apply elem_of_list_In, in_map, elem_of_list_In. exact Hk.
              ** apply Hprio; [rewrite Hkp; right; exact Hk|exact Hrr].
        -- cbn [es_count length]. apply Permutation_length in Hkp. cbn [length] in Hkp. lia.
    + apply Rltb_false in Ep. exists s1. split; [reflexivity|]. split; [rewrite Ev; exact Hs|]. split; [rewrite app_length; cbn [length]; lia|].
      exists kept. split; [rewrite Ev; exact HP|]. split; [|lia].
      apply (top_landmark alpha (es_start s1)). exists (rest ++ [o]). split; [rewrite app_assoc, HP1; reflexivity|].
      intros k r Hk Hrr. apply elem_of_app in Hrr as [Hrr|Hrr]; [apply Hprio; assumption|].
      apply elem_of_list_singleton in Hrr. subst r. fold p.
      assert (HH : fst least <= fst (stored (es_start s1) k)).
      { apply Hleast. rewrite HP. apply elem_of_list_In, in_map, elem_of_list_In. exact Hk. }
      cbn [stored fst] in HH. rlra.
Qed.

Lemma clear_inv t1 t2 : (0 <= size)%Z -> dinv [] (es_clear (NN := RN) t1 t2).
Proof.
  intros H. split; [constructor|]. split; [cbn; lia|]. exists []. split; [reflexivity|]. split; [|reflexivity].
  exists []. split; [reflexivity|]. intros k r Hk. apply elem_of_nil in Hk. contradiction.
Qed.

Lemma offers_inv os all s : (0 < size)%Z -> Forall (fun o => of_rnd o <> 0) os -> dinv all s ->
  exists s', offer_all os s = (s', Ok tt) /\ dinv (all ++ os) s'.
Proof.
  intros Hsz Hall. revert all s. induction Hall as [|o os Ho Hall IH]; intros all s Hd; cbn [offer_all].
  - exists s. rewrite app_nil_r. auto.
  - destruct (update_inv all s o Hsz Hd Ho) as (s1 & -> & Hd1). destruct (IH _ _ Hd1) as (s' & H1 & H2).
    exists s'. split; [exact H1|]. rewrite <- app_assoc in H2. exact H2.
Qed.

Lemma decaying os t1 t2 : (0 < size)%Z -> Forall (fun o => of_rnd o <> 0) os ->
  exists s kept, offer_all os (es_clear (NN := RN) t1 t2) = (s, Ok tt) /\
    es_get (NN := RN) s ≡ₚ map of_value kept /\ (forall L, top alpha L os kept) /\
    Z.of_nat (length kept) = Z.min (Z.of_nat (length os)) size /\
    es_size (NN := RN) size s = Z.of_nat (length (es_get (NN := RN) s)) /\
    psorted (es_values s).
Proof.
  intros Hsz Hr. destruct (offers_inv os [] _ Hsz Hr (clear_inv t1 t2 ltac:(lia))) as (s & H1 & Hs & Hc & kept & HP & Ht & Hl).
  exists s, kept. split; [exact H1|]. split.
  - unfold es_get. rewrite HP, map_map. reflexivity.
  - cbn [app] in *. split; [intros L; apply (top_landmark alpha 0); exact Ht|]. split; [lia|]. split; [|exact Hs].
    unfold es_size. unfold es_get. rewrite map_length. apply Permutation_length in HP. rewrite map_length in HP. lia.
Qed.
End decay.

(** the random number 0 (random() may return it) aborts the update *)
Lemma zero_random alpha size s v ts :
  snd (es_update (NN := RN) exp alpha size s v ts 0) = Exn ZeroDivisionError.
Proof.
  unfold es_update. set (s1 := if nleb (Num := RN) _ _ then _ else _). unfold pydiv. cbn [neqb n0 nofZ RN].
  destruct (Reqb' 0 (IZR 0)) eqn:E; [reflexivity|]. exfalso. assert (H : Reqb' 0 (IZR 0) = true) by (apply Reqb_true; reflexivity). congruence.
Qed.
