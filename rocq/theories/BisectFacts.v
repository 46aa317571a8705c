(** Facts about the search loop and sorted insertion. *)
From Verif Require Import Base Bisect.

(** ** the search loop *)
Lemma bsearch_spec p fuel lo hi : (hi - lo <= fuel)%nat -> (lo <= hi)%nat ->
  (forall i j, (lo <= i)%nat -> (i <= j)%nat -> (j < hi)%nat -> p i = true -> p j = true) ->
  let r := bsearch fuel p lo hi in
  (lo <= r <= hi)%nat /\ (forall i, (lo <= i < r)%nat -> p i = false) /\
  (forall i, (r <= i < hi)%nat -> p i = true).
Proof.
  revert lo hi. induction fuel as [|f IH]; intros lo hi Hf Hle Hm; cbn [bsearch].
  - split; [lia|]. split; intros; lia.
  - destruct (Nat.ltb_spec lo hi) as [Hlt|Hge]; [|split; [lia|]; split; intros; lia].
    pose proof (Nat.div_mod (lo + hi) 2 ltac:(lia)) as Hd.
    pose proof (Nat.mod_upper_bound (lo + hi) 2 ltac:(lia)) as Hu.
    set (mid := ((lo + hi) / 2)%nat) in *. clearbody mid.
    destruct (p mid) eqn:Hp.
    + destruct (IH lo mid) as (H1 & H2 & H3); [lia|lia| |].
      { intros i j ? ? ? ?. apply (Hm i j); auto; lia. }
      cbn zeta in *. split; [lia|]. split; [exact H2|].
      intros i Hi. destruct (decide (i < mid)%nat); [apply H3; lia|]. apply (Hm mid i); auto; lia.
    + destruct (IH (S mid) hi) as (H1 & H2 & H3); [lia|lia| |].
      { intros i j ? ? ? ?. apply (Hm i j); auto; lia. }
      cbn zeta in *. split; [lia|]. split; [|exact H3].
      intros i Hi. destruct (decide (S mid <= i)%nat); [apply H2; lia|].
      destruct (p i) eqn:Hpi; [|reflexivity]. rewrite <- Hp. symmetry. apply (Hm i mid); auto; lia.
Qed.

(** ** insertion into a list sorted by a total preorder *)
Section insort.
Context {A : Type} (le : A -> A -> Prop) (ltb : A -> A -> bool).
Context (le_trans : forall a b c, le a b -> le b c -> le a c).
Context (ltb_true : forall a b, ltb a b = true -> le a b) (ltb_false : forall a b, ltb a b = false <-> le b a).

Lemma insort_by_perm x l : insort_by ltb x l ≡ₚ x :: l.
Proof. unfold insort_by. rewrite <- Permutation_middle, take_drop. reflexivity. Qed.

Lemma ss_lookup l i j a b : StronglySorted le l -> (i < j)%nat -> l !! i = Some a -> l !! j = Some b -> le a b.
Proof.
  intros Hs. revert i j. induction Hs as [|x l Hs IH Hx]; intros i j Hij Ha Hb; [discriminate|].
  destruct i as [|i], j as [|j]; cbn in *; try lia.
  - injection Ha as <-. rewrite Forall_forall in Hx. apply Hx. eapply elem_of_list_lookup_2; eauto.
  - apply (IH i j); auto; lia.
Qed.
Lemma ss_app l k : StronglySorted le l -> StronglySorted le k -> (forall a b, a ∈ l -> b ∈ k -> le a b) -> StronglySorted le (l ++ k).
Proof.
  intros Hl Hk H. induction Hl as [|x l Hl IH Hx]; cbn; [exact Hk|]. constructor.
  - apply IH. intros. apply H; [right|]; assumption.
  - apply Forall_app. split; [exact Hx|]. apply Forall_forall. intros b Hb. apply H; [left|exact Hb].
Qed.
Lemma ss_app_inv l k : StronglySorted le (l ++ k) -> StronglySorted le l /\ StronglySorted le k.
Proof.
  induction l as [|x l IH]; cbn; [intros; split; [constructor|assumption]|].
  intros H. inversion H as [|? ? H1 H2]; subst. destruct (IH H1). split; [|assumption].
  constructor; [assumption|]. apply Forall_app in H2. apply H2.
Qed.
Lemma insort_by_sorted x l : StronglySorted le l -> StronglySorted le (insort_by ltb x l).
Proof using All.
  intros Hs. unfold insort_by.
  set (p := fun mid => match l !! mid with Some y => ltb x y | None => false end).
  destruct (bsearch_spec p (length l) 0 (length l)) as (H1 & H2 & H3); [lia|lia| |].
  { intros i j _ Hij Hj. unfold p.
    destruct (lookup_lt_is_Some_2 l i ltac:(lia)) as [a Ha]. destruct (lookup_lt_is_Some_2 l j Hj) as [b Hb].
    rewrite Ha, Hb. intros Hxa. destruct (ltb x b) eqn:Eb; [reflexivity|].
    destruct (decide (i = j)) as [->|Hne]; [congruence|].
    pose proof (ss_lookup l i j a b Hs ltac:(lia) Ha Hb) as Hab.
    apply ltb_false in Eb. pose proof (le_trans _ _ _ Hab Eb) as Hax. apply ltb_false in Hax. congruence. }
  cbn zeta in *. set (i := bsearch _ p 0 _) in *. clearbody i.
  rewrite <- (take_drop i l) in Hs. destruct (ss_app_inv _ _ Hs) as [Hs1 Hs2].
  assert (Hlt : forall a, a ∈ take i l -> le a x).
  { intros a Ha. apply elem_of_list_lookup in Ha as [k Hk]. apply lookup_take_Some in Hk as [Hk Hki].
    specialize (H2 k ltac:(lia)). unfold p in H2. rewrite Hk in H2. apply ltb_false in H2. exact H2. }
  assert (Hge : forall b, b ∈ drop i l -> le x b).
  { intros b Hb. apply elem_of_list_lookup in Hb as [k Hk]. rewrite lookup_drop in Hk.
    pose proof (lookup_lt_Some _ _ _ Hk). specialize (H3 (i + k)%nat ltac:(lia)). unfold p in H3. rewrite Hk in H3.
    apply ltb_true. exact H3. }
  apply ss_app; [exact Hs1| |].
  - constructor; [exact Hs2|]. apply Forall_forall. exact Hge.
  - intros a b Ha Hb. apply elem_of_cons in Hb as [->|Hb]; [auto|]. eapply le_trans; eauto.
Qed.
End insort.
