(** The uniform reservoir and histograms over any history of updates. *)
From Verif Require Import Base Num Env Stats TimerFacts.

(** ** The uniform reservoir, for every number type *)
Section reservoir.
Context `{NN : Num} (E : env).

Inductive uop := UUpdate (v : num) | UClear.
Fixpoint urun (ops : list uop) (u : usample) (w : world) : usample * world :=
  match ops with
  | [] => (u, w)
  | UUpdate v :: ops' => let '(u', w') := us_update E u v w in urun ops' u' w'
  | UClear :: ops' => urun ops' (us_clear u) w
  end.
(** the values offered since the last clear *)
Definition offered (ops : list uop) : list num :=
  fold_left (fun l o => match o with UUpdate v => l ++ [v] | UClear => [] end) ops [].
(** [kept] consists of different occurrences of elements of [l] *)
Definition picked (l kept : list num) : Prop :=
  exists js : list nat, NoDup js /\ Forall2 (fun j v => l !! j = Some v) js kept.

Definition us_inv (size : nat) (l : list num) (u : usample) : Prop :=
  length (us_values u) = size /\ us_count u = Z.of_nat (length l) /\
  picked l (us_get u) /\ ((length l <= size)%nat -> us_get u = l).

Lemma us_get_length size l u : us_inv size l u -> length (us_get u) = Nat.min (length l) size.
Proof.
  intros (H1 & H2 & _). unfold us_get, us_size. rewrite take_length, H1, H2.
  destruct (Z.gtb_spec (Z.of_nat (length l)) (Z.of_nat size)); lia.
Qed.
Lemma picked_snoc l v kept : picked l kept -> picked (l ++ [v]) kept.
Proof.
  intros (js & Hn & H). exists js. split; [exact Hn|]. eapply Forall2_impl; [exact H|].
  intros j x Hj. apply lookup_app_l_Some. exact Hj.
Qed.
Lemma picked_range l js kept : Forall2 (fun (j : nat) (v : num) => l !! j = Some v) js kept -> Forall (fun j => (j < length l)%nat) js.
Proof. induction 1; constructor; auto. eapply lookup_lt_Some; eauto. Qed.

Lemma us_update_inv size l u v w : us_inv size l u -> us_inv size (l ++ [v]) (fst (us_update E u v w)).
Proof.
  intros (H1 & H2 & H3 & H4). unfold us_update. rewrite H1, H2.
  destruct (Z.leb_spec (Z.of_nat (length l) + 1) (Z.of_nat size)) as [Hle|Hgt]; cbn [fst].
  - assert (Hget : us_get u = l) by (apply H4; lia).
    assert (Hnew : us_get (USample (<[Z.to_nat (Z.of_nat (length l) + 1 - 1):=v]> (us_values u)) (Z.of_nat (length l) + 1)) = l ++ [v]).
    { unfold us_get, us_size in *. cbn [us_values us_count]. rewrite insert_length, H1.
      destruct (Z.gtb_spec (Z.of_nat (length l) + 1) (Z.of_nat size)); [lia|].
      rewrite H1, H2 in Hget. destruct (Z.gtb_spec (Z.of_nat (length l)) (Z.of_nat size)); [lia|].
      replace (Z.to_nat (Z.of_nat (length l) + 1 - 1)) with (length l) by lia.
      replace (Z.to_nat (Z.of_nat (length l) + 1)) with (S (length l)) by lia.
      rewrite Nat2Z.id in Hget. rewrite (take_S_r _ _ v) by (apply list_lookup_insert; lia).
      rewrite take_insert by lia. rewrite Hget. reflexivity. }
    split; [cbn; rewrite insert_length; exact H1|]. split; [cbn; rewrite app_length; cbn; lia|].
    rewrite Hnew. split; [|reflexivity].
    exists (seq 0 (length (l ++ [v]))). split; [apply NoDup_seq|].
    apply Forall2_same_length_lookup_2; [apply seq_length|]. intros i x y Hx Hy.
    apply lookup_seq in Hx as [-> _]. exact Hy.
  - destruct (randint E w) as [r0 w'].
    assert (Hsz : us_size u = Z.of_nat size \/ us_size u = Z.of_nat (length l)).
    { unfold us_size. rewrite H1, H2. destruct (_ >? _); auto. }
    assert (Hfull : us_get u = us_values u).
    { unfold us_get, us_size. rewrite H1, H2. apply take_ge. destruct (Z.gtb_spec (Z.of_nat (length l)) (Z.of_nat size)); lia. }
    pose proof (Z.mod_pos_bound r0 (Z.of_nat (length l) + 1) ltac:(lia)) as Hr.
    set (r := r0 mod (Z.of_nat (length l) + 1)) in *. clearbody r.
    destruct (Z.ltb_spec r (Z.of_nat size)) as [Hlt|Hge]; cbn [fst].
    + split; [cbn; rewrite insert_length; exact H1|]. split; [cbn; rewrite app_length; cbn; lia|].
      assert (Hg : us_get (USample (<[Z.to_nat r:=v]> (us_values u)) (Z.of_nat (length l) + 1)) = <[Z.to_nat r := v]> (us_values u)).
      { unfold us_get, us_size. cbn [us_values us_count]. rewrite insert_length, H1.
        apply take_ge. rewrite insert_length. destruct (Z.gtb_spec (Z.of_nat (length l) + 1) (Z.of_nat size)); lia. }
      rewrite Hg. split.
      * rewrite Hfull in H3. destruct H3 as (js & Hnd & Hf). pose proof (Forall2_length _ _ _ Hf) as Hlen.
        pose proof (picked_range _ _ _ Hf) as Hrange.
        exists (<[Z.to_nat r := length l]> js). split.
        -- apply NoDup_alt. intros i j x Hi Hj. rewrite NoDup_alt in Hnd. rewrite Forall_forall in Hrange.
           destruct (decide (i = Z.to_nat r)) as [->|Hir], (decide (j = Z.to_nat r)) as [->|Hjr]; [reflexivity| | |].
           ++ rewrite list_lookup_insert in Hi by (rewrite Hlen; lia). injection Hi as <-.
              rewrite list_lookup_insert_ne in Hj by auto. exfalso.
              apply elem_of_list_lookup_2 in Hj. apply Hrange in Hj. lia.
           ++ rewrite list_lookup_insert in Hj by (rewrite Hlen; lia). injection Hj as <-.
              rewrite list_lookup_insert_ne in Hi by auto. exfalso.
              apply elem_of_list_lookup_2 in Hi. apply Hrange in Hi. lia.
           ++ rewrite list_lookup_insert_ne in Hi by auto. rewrite list_lookup_insert_ne in Hj by auto. eapply Hnd; eauto.
        -- apply Forall2_insert; [|rewrite lookup_app_r, Nat.sub_diag by lia; reflexivity].
           eapply Forall2_impl; [exact Hf|]. intros j x Hj. apply lookup_app_l_Some. exact Hj.
      * intros H. rewrite app_length in H. cbn in H. lia.
    + split; [cbn; exact H1|]. split; [cbn; rewrite app_length; cbn; lia|].
      assert (Hg : us_get (USample (us_values u) (Z.of_nat (length l) + 1)) = us_values u).
      { unfold us_get, us_size. cbn [us_values us_count]. rewrite H1.
        apply take_ge. destruct (Z.gtb_spec (Z.of_nat (length l) + 1) (Z.of_nat size)); lia. }
      rewrite Hg. split; [rewrite <- Hfull; apply picked_snoc; exact H3|].
      intros H. rewrite app_length in H. cbn in H. lia.
Qed.
Lemma us_zero_inv size vs : length vs = size -> us_inv size [] (USample vs 0).
Proof.
  intros H. split; [exact H|]. split; [reflexivity|]. unfold us_get, us_size. cbn [us_count us_values].
  assert (H0 : (0 >? Z.of_nat (length vs)) = false) by lia. rewrite H0. cbn. split; [|reflexivity].
  exists []. split; constructor.
Qed.
Lemma urun_inv size ops l u w : us_inv size l u ->
  us_inv size (fold_left (fun l o => match o with UUpdate v => l ++ [v] | UClear => [] end) ops l) (fst (urun ops u w)).
Proof.
  revert l u w. induction ops as [|o ops IH]; intros l u w Hu; cbn [urun fold_left]; [exact Hu|].
  destruct o as [v|].
  - pose proof (us_update_inv size l u v w Hu) as H. destruct (us_update E u v w) as [u' w'] eqn:Eu. apply IH. exact H.
  - apply IH. unfold us_clear. destruct Hu as (H1 & _). rewrite H1. apply us_zero_inv. apply replicate_length.
Qed.
Lemma reservoir_history size ops w :
  let kept := us_get (fst (urun ops (us_new size) w)) in
  length kept = Nat.min (length (offered ops)) size /\ picked (offered ops) kept /\
  ((length (offered ops) <= size)%nat -> kept = offered ops).
Proof.
  cbn zeta. pose proof (urun_inv size ops [] (us_new size) w) as H.
  specialize (H (us_zero_inv size (replicate size n0) (replicate_length _ _))).
  split; [apply us_get_length; exact H|]. destruct H as (_ & _ & H1 & H2). auto.
Qed.
End reservoir.

(** ** Histograms over a history of updates and clears *)
Section hist.
Context `{NN : Num} (E : env).
Inductive hop := HUpdate (v : num) | HClear.
Fixpoint hrun (ops : list hop) (h : hist) (w : world) : hist * world :=
  match ops with
  | [] => (h, w)
  | HUpdate v :: ops' => let '(h', w') := h_update E h v w in hrun ops' h' w'
  | HClear :: ops' => hrun ops' (h_clear h) w
  end.
(** the values recorded since the last clear *)
Definition recorded (ops : list hop) : list num :=
  fold_left (fun l o => match o with HUpdate v => l ++ [v] | HClear => [] end) ops [].

Lemma h_update_fields h v w :
  let h' := fst (h_update E h v w) in
  h_count h' = h_count h + 1 /\ h_sum h' = nadd (h_sum h) v /\
  h_var h' = update_variance (h_count h + 1) (h_var h) v /\
  h_sample h' = fst (us_update E (h_sample h) v w) /\
  (0 <= h_count h -> h_max h' = Some (match h_max h with None => v | Some m => pymax m v end) /\
   h_min h' = Some (match h_min h with None => v | Some m => pymin m v end)).
Proof.
  unfold h_update. destruct (us_update E (h_sample h) v w) as [s w'] eqn:Es. cbn.
  repeat split; auto; rewrite (proj2 (Z.gtb_lt _ _)) by lia; destruct (h_max h), (h_min h); reflexivity.
Qed.

(** induction over histories: what holds after a clear and is kept by updates *)
Lemma hrun_ind (P : list num -> hist -> Prop) :
  (forall h, P [] (h_clear h)) ->
  (forall l h v w, P l h -> P (l ++ [v]) (fst (h_update E h v w))) ->
  forall ops l h w, P l h ->
  P (fold_left (fun l o => match o with HUpdate v => l ++ [v] | HClear => [] end) ops l) (fst (hrun ops h w)).
Proof.
  intros H0 H1. induction ops as [|o ops IH]; intros l h w Hp; cbn [hrun fold_left]; [exact Hp|].
  destruct o as [v|].
  - specialize (H1 l h v w Hp). destruct (h_update E h v w) as [h' w'] eqn:Eu. apply IH. exact H1.
  - apply IH. apply H0.
Qed.
Lemma hrun_new (P : list num -> hist -> Prop) :
  (forall h, P [] (h_clear h)) ->
  (forall l h v w, P l h -> P (l ++ [v]) (fst (h_update E h v w))) ->
  forall ops s w, P (recorded ops) (fst (hrun ops (h_new s) w)).
Proof. intros H0 H1 ops s w. unfold recorded. apply hrun_ind; auto. apply H0. Qed.

Lemma hist_count ops s w : h_count (fst (hrun ops (h_new s) w)) = Z.of_nat (length (recorded ops)).
Proof.
  apply (hrun_new (fun l h => h_count h = Z.of_nat (length l))); [reflexivity|].
  intros l h v w' H. destruct (h_update_fields h v w') as (H1 & _). rewrite H1, H, app_length. cbn. lia.
Qed.
Lemma hist_sum ops s w : h_sum (fst (hrun ops (h_new s) w)) = nsum (recorded ops).
Proof.
  apply (hrun_new (fun l h => h_sum h = nsum l)); [reflexivity|].
  intros l h v w' H. destruct (h_update_fields h v w') as (_ & H1 & _). rewrite H1, H. unfold nsum. rewrite fold_left_app. reflexivity.
Qed.
(** the sample holds what a uniform reservoir of that size would *)
Lemma hist_sample ops s w size : length (us_values s) = size ->
  us_inv size (recorded ops) (h_sample (fst (hrun ops (h_new s) w))).
Proof.
  intros Hs. unfold recorded.
  assert (Hind : forall ops l h w, us_inv size l (h_sample h) ->
    us_inv size (fold_left (fun l o => match o with HUpdate v => l ++ [v] | HClear => [] end) ops l) (h_sample (fst (hrun ops h w)))).
  { clear - E. induction ops as [|o ops IH]; intros l h w Hp; cbn [hrun fold_left]; [exact Hp|]. destruct o as [v|].
    - pose proof (h_update_fields h v w) as (_ & _ & _ & Hf & _).
      pose proof (us_update_inv E size l (h_sample h) v w Hp) as H1.
      destruct (h_update E h v w) as [h' w'] eqn:Eu. cbn [fst] in Hf. apply IH. rewrite Hf. exact H1.
    - apply IH. cbn [h_clear h_sample]. unfold us_clear. destruct Hp as (H1 & _). rewrite H1. apply us_zero_inv. apply replicate_length. }
  apply Hind. cbn [h_new h_clear h_sample]. unfold us_clear. rewrite Hs. apply us_zero_inv. apply replicate_length.
Qed.

(** extrema *)
Context (NO : NumOrd NN).
Definition greatest (l : list num) (m : num) : Prop := m ∈ l /\ forall x, x ∈ l -> nltb m x = false.
Definition least (l : list num) (m : num) : Prop := m ∈ l /\ forall x, x ∈ l -> nltb x m = false.

Lemma lt_irrefl a : nok a -> nltb a a = false.
Proof using NO. intros Ha. destruct (nltb a a) eqn:Ea; [|reflexivity]. pose proof (lt_asym a a Ha Ha Ea). congruence. Qed.

Lemma hist_extrema ops s w : Forall nok (recorded ops) ->
  (recorded ops <> [] -> greatest (recorded ops) (h_get_max (fst (hrun ops (h_new s) w))) /\
                         least (recorded ops) (h_get_min (fst (hrun ops (h_new s) w)))) /\
  (recorded ops = [] -> h_get_max (fst (hrun ops (h_new s) w)) = n0 /\ h_get_min (fst (hrun ops (h_new s) w)) = n0).
Proof using NO.
  intros Hok.
  assert (H : (recorded ops = [] -> h_max (fst (hrun ops (h_new s) w)) = None /\ h_min (fst (hrun ops (h_new s) w)) = None) /\
    (Forall nok (recorded ops) -> recorded ops <> [] -> exists mx mn,
        h_max (fst (hrun ops (h_new s) w)) = Some mx /\ h_min (fst (hrun ops (h_new s) w)) = Some mn /\
        greatest (recorded ops) mx /\ least (recorded ops) mn) /\ h_count (fst (hrun ops (h_new s) w)) = Z.of_nat (length (recorded ops))).
  { apply (hrun_new (fun l h => (l = [] -> h_max h = None /\ h_min h = None) /\
      (Forall nok l -> l <> [] -> exists mx mn, h_max h = Some mx /\ h_min h = Some mn /\ greatest l mx /\ least l mn) /\
      h_count h = Z.of_nat (length l))).
    - intros h. split; [auto|]. split; [contradiction|reflexivity].
    - clear Hok. intros l h v w' (H0 & H1 & Hc). destruct (h_update_fields h v w') as (Hc' & _ & _ & _ & Hm).
      destruct (Hm ltac:(lia)) as [Hmx Hmn]. split; [intros Habs; destruct l; discriminate|].
      split; [|rewrite Hc', Hc, app_length; cbn; lia].
      intros Hok _. apply Forall_app in Hok as [Hok Hv]. inversion Hv as [|? ? Hv' _]; subst.
      exists (match h_max h with None => v | Some m => pymax m v end), (match h_min h with None => v | Some m => pymin m v end).
      split; [exact Hmx|]. split; [exact Hmn|]. destruct l as [|y l].
      + destruct (H0 eq_refl) as [-> ->]. cbn [app]. split; (split; [left|]); intros x Hx; apply elem_of_list_singleton in Hx; subst x; apply lt_irrefl; exact Hv'.
      + destruct (H1 Hok ltac:(discriminate)) as (mx & mn & -> & -> & [G1 G2] & [L1 L2]).
        rewrite Forall_forall in Hok. unfold pymax, pymin. split.
        * destruct (nltb mx v) eqn:Ev; (split; [apply elem_of_app|]).
          -- right. left.
          -- intros x Hx. apply elem_of_app in Hx as [Hx|Hx].
             ++ destruct (nltb v x) eqn:E2; [|reflexivity]. exfalso.
                specialize (G2 x Hx). pose proof (lt_asym mx v (Hok _ G1) Hv' Ev) as Hvm.
                pose proof (lt_negtrans v mx x Hv' (Hok _ G1) (Hok _ Hx) Hvm G2). congruence.
             ++ apply elem_of_list_singleton in Hx. subst x. apply lt_irrefl. exact Hv'.
          -- left. exact G1.
          -- intros x Hx. apply elem_of_app in Hx as [Hx|Hx]; [auto|]. apply elem_of_list_singleton in Hx. subst x. exact Ev.
        * destruct (nltb v mn) eqn:Ev; (split; [apply elem_of_app|]).
          -- right. left.
          -- intros x Hx. apply elem_of_app in Hx as [Hx|Hx].
             ++ destruct (nltb x v) eqn:E2; [|reflexivity]. exfalso.
                specialize (L2 x Hx). pose proof (lt_asym v mn Hv' (Hok _ L1) Ev) as Hvm.
                pose proof (lt_negtrans x mn v (Hok _ Hx) (Hok _ L1) Hv' L2 Hvm). congruence.
             ++ apply elem_of_list_singleton in Hx. subst x. apply lt_irrefl. exact Hv'.
          -- left. exact L1.
          -- intros x Hx. apply elem_of_app in Hx as [Hx|Hx]; [auto|]. apply elem_of_list_singleton in Hx. subst x. exact Ev. }
  destruct H as (H0 & H1 & Hc). unfold h_get_max, h_get_min. rewrite Hc. split.
  - intros Hne. destruct (H1 Hok Hne) as (mx & mn & -> & -> & G & L).
    destruct (Z.gtb_spec (Z.of_nat (length (recorded ops))) 0) as [_|Hz]; [auto|].
    destruct (recorded ops); [contradiction|cbn in Hz; lia].
  - intros ->. cbn. auto.
Qed.
End hist.
