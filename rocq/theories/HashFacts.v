(** Facts about the hash ring of Hashing.v. *)
From Verif Require Import Base Bisect BisectFacts Hashing.

(** ** Specification: the ring as a set of points on a circle.  Only this
    section's names appear in the statements. *)
Section spec.
Context {node : Type} `{!EqDecision node}.
Context (label : node -> str) (nlt : node -> node -> bool) (hash : str -> Z).

(** what a caller does to a ring *)
Inductive rop := AddNode (n : node) | RemoveNode (n : node).

(** the nodes present after some calls, with repetition when added repeatedly *)
Definition present (ops : list rop) : list node :=
  fold_left (fun l o => match o with AddNode n => n :: l | RemoveNode n => filter (fun m => m <> n) l end)
            ops [].

(** the points of one node: one for each of the [count] replicas, numbered from 0 *)
Definition points (count : nat) (n : node) : list (Z * node) :=
  map (fun i => (hash (label n ++ B ":" ++ show_N (N.of_nat i)), n)) (seq 0 count).

(** order of the points: by position, points of different nodes at the same
    position by the order of the nodes *)
Definition before (a b : Z * node) : Prop :=
  fst a < fst b \/ (fst a = fst b /\ (snd a = snd b \/ nlt (snd a) (snd b) = true)).

(** [a] is met no later than [b] when walking clockwise from position [p] *)
Definition met_before (p : Z) (a b : Z * node) : Prop :=
  (p <= fst a /\ fst b < p) \/ (((p <= fst a /\ p <= fst b) \/ (fst a < p /\ fst b < p)) /\ before a b).

(** [n] owns the first point met clockwise from [p] *)
Definition owner (pts : list (Z * node)) (p : Z) (n : node) : Prop :=
  exists q, (q, n) ∈ pts /\ forall b, b ∈ pts -> met_before p (q, n) b.

(** the distinct elements of a list, in order of first occurrence *)
Fixpoint firsts (seen : list node) (l : list node) : list node :=
  match l with
  | [] => []
  | n :: l' => if decide (n ∈ seen) then firsts seen l' else n :: firsts (n :: seen) l'
  end.

(** python's order of the nodes: one of each pair of different nodes is smaller *)
Definition node_order : Prop :=
  (forall a, nlt a a = false) /\
  (forall a b c, nlt a b = true -> nlt b c = true -> nlt a c = true) /\
  (forall a b, a <> b -> nlt a b = true \/ nlt b a = true).
Definition ascii_only (s : str) : Prop := Forall (fun c => code c < 128) s.

(** a ring after some calls, started empty *)
Fixpoint perform (ops : list rop) : M (ring node) unit :=
  match ops with
  | [] => ret tt
  | AddNode n :: ops' => add_node label nlt hash n ;! perform ops'
  | RemoveNode n :: ops' => remove_node n ;! perform ops'
  end.
End spec.

Section facts.
Context {node : Type} `{!EqDecision node}.
Context (nlt : node -> node -> bool).
Context (ORD : node_order nlt).
Notation entry := (Z * node)%type.
Notation Before := (before nlt).
Notation Ltb := (entry_ltb nlt).
Notation MetBefore := (met_before nlt).

Lemma before_refl a : Before a a.
Proof. right. auto. Qed.
Lemma before_trans a b c : Before a b -> Before b c -> Before a c.
Proof using EqDecision0 ORD.
  destruct ORD as (Hi & Ht & Hc). unfold before. intros [H1|[H1 H1']] [H2|[H2 H2']]; [left; lia|left; lia|left; lia|].
  right. split; [lia|]. destruct H1' as [->|H1'], H2' as [<-|H2']; auto. right. eauto.
Qed.
Lemma before_antisym a b : Before a b -> Before b a -> a = b.
Proof using EqDecision0 ORD.
  destruct ORD as (Hi & Ht & Hc). destruct a as [p n], b as [q m]. unfold before. cbn.
  intros [H1|[H1 H1']] [H2|[H2 H2']]; try lia. f_equal; [lia|].
  destruct H1' as [->|H1']; [reflexivity|]. destruct H2' as [->|H2']; [reflexivity|].
  pose proof (Ht _ _ _ H1' H2') as H. rewrite Hi in H. discriminate.
Qed.
Lemma before_total a b : Before a b \/ Before b a.
Proof using EqDecision0 ORD.
  destruct ORD as (Hi & Ht & Hc). unfold before.
  destruct (Z.lt_trichotomy (fst a) (fst b)) as [H|[H|H]]; [left; left; exact H| |right; left; exact H].
  destruct (decide (snd a = snd b)) as [E|E]; [left; right; auto|].
  destruct (Hc _ _ E) as [H'|H']; [left|right]; right; auto.
Qed.
Lemma entry_ltb_spec a b : Ltb a b = true <-> (Before a b /\ a <> b).
Proof using EqDecision0 ORD.
  destruct ORD as (Hi & Ht & Hc). destruct a as [p n], b as [q m]. unfold entry_ltb, before. cbn.
  destruct (Z.eqb_spec p q) as [->|Hpq].
  - destruct (decide (n = m)) as [->|Hnm].
    + split; [discriminate|]. intros [_ H]. contradiction.
    + split.
      * intros H. split; [right; auto|congruence].
      * intros [[H|[_ [H|H]]] _]; [lia|contradiction|exact H].
  - rewrite Z.ltb_lt. split; [intros; split; [left; auto|congruence]|]. intros [[H|[H _]] _]; [exact H|lia].
Qed.
Lemma entry_ltb_false a b : Ltb a b = false <-> Before b a.
Proof using EqDecision0 ORD.
  destruct (Ltb a b) eqn:E.
  - apply entry_ltb_spec in E. destruct E as [E1 E2]. split; [discriminate|].
    intros H. destruct E2. apply before_antisym; assumption.
  - split; [|reflexivity]. intros _. destruct (before_total b a) as [H|H]; [exact H|].
    destruct (decide (a = b)) as [->|N]; [apply before_refl|].
    assert (Ltb a b = true) by (apply entry_ltb_spec; auto). congruence.
Qed.
Lemma below_spec p (a : entry) : below p a = (fst a <? p).
Proof. unfold below. destruct (Z.eqb_spec (fst a) p); [lia|reflexivity]. Qed.

Definition sorted (l : list entry) : Prop := StronglySorted Before l.

Lemma sorted_lookup l i j a b : sorted l -> (i <= j)%nat -> l !! i = Some a -> l !! j = Some b -> Before a b.
Proof.
  intros Hs. revert i j. induction Hs as [|x l Hs IH Hx]; intros i j Hij Ha Hb; [discriminate|].
  destruct i as [|i], j as [|j]; cbn in *; try lia.
  - injection Ha as <-. injection Hb as <-. apply before_refl.
  - injection Ha as <-. rewrite Forall_forall in Hx. apply Hx. eapply elem_of_list_lookup_2; eauto.
  - apply (IH i j); auto; lia.
Qed.
Lemma sorted_app l k : sorted l -> sorted k -> (forall a b, a ∈ l -> b ∈ k -> Before a b) -> sorted (l ++ k).
Proof.
  intros Hl Hk H. induction Hl as [|x l Hl IH Hx]; cbn; [exact Hk|]. constructor.
  - apply IH. intros. apply H; [right|]; assumption.
  - apply Forall_app. split; [exact Hx|]. apply Forall_forall. intros b Hb. apply H; [left|exact Hb].
Qed.
Lemma sorted_app_inv l k : sorted (l ++ k) -> sorted l /\ sorted k.
Proof.
  induction l as [|x l IH]; cbn; [intros; split; [constructor|assumption]|].
  intros H. inversion H as [|? ? H1 H2]; subst. destruct (IH H1). split; [|assumption].
  constructor; [assumption|]. apply Forall_app in H2. apply H2.
Qed.

Lemma insort_perm x l : insort_entry nlt x l ≡ₚ x :: l.
Proof. apply insort_by_perm. Qed.
Lemma insort_sorted x l : sorted l -> sorted (insort_entry nlt x l).
Proof using EqDecision0 ORD.
  apply insort_by_sorted.
  - exact before_trans.
  - intros a b H. apply entry_ltb_spec in H. apply H.
  - exact entry_ltb_false.
Qed.

(** [bisect_left]: the number of entries strictly below the position *)
Lemma bisect_left_spec p l : sorted l ->
  let i := bisect_left p l in
  (i <= length l)%nat /\ (forall a, a ∈ take i l -> fst a < p) /\ (forall b, b ∈ drop i l -> p <= fst b).
Proof using EqDecision0 ORD.
  intros Hs. unfold bisect_left.
  set (f := fun mid => match l !! mid with Some y => negb (below p y) | None => false end).
  destruct (bsearch_spec f (length l) 0 (length l)) as (H1 & H2 & H3); [lia|lia| |].
  { intros i j _ Hij Hj. unfold f.
    destruct (lookup_lt_is_Some_2 l i ltac:(lia)) as [a Ha]. destruct (lookup_lt_is_Some_2 l j Hj) as [b Hb].
    rewrite Ha, Hb, !below_spec. pose proof (sorted_lookup l i j a b Hs Hij Ha Hb) as Hab.
    unfold before in Hab. lia. }
  cbn zeta in *. set (i := bsearch _ f 0 _) in *. clearbody i.
  split; [lia|]. split.
  - intros a Ha. apply elem_of_list_lookup in Ha as [k Hk]. apply lookup_take_Some in Hk as [Hk Hki].
    specialize (H2 k ltac:(lia)). unfold f in H2. rewrite Hk, below_spec in H2. lia.
  - intros b Hb. apply elem_of_list_lookup in Hb as [k Hk]. rewrite lookup_drop in Hk.
    pose proof (lookup_lt_Some _ _ _ Hk). specialize (H3 (i + k)%nat ltac:(lia)). unfold f in H3.
    rewrite Hk, below_spec in H3. lia.
Qed.

(** ** walking clockwise *)
Lemma met_trans p a b c : MetBefore p a b -> MetBefore p b c -> MetBefore p a c.
Proof using EqDecision0 ORD.
  unfold met_before. intros [H1|[H1 B1]] [H2|[H2 B2]]; try lia; try (left; lia).
  right. split; [lia|]. eapply before_trans; eauto.
Qed.
Lemma met_antisym p a b : MetBefore p a b -> MetBefore p b a -> a = b.
Proof using EqDecision0 ORD.
  unfold met_before. intros [H1|[H1 B1]] [H2|[H2 B2]]; try lia. apply before_antisym; auto.
Qed.
Lemma met_total p a b : MetBefore p a b \/ MetBefore p b a.
Proof using EqDecision0 ORD.
  unfold met_before. destruct (before_total a b), (Z_lt_ge_dec (fst a) p), (Z_lt_ge_dec (fst b) p);
    first [left; left; lia | right; left; lia | left; right; split; [lia|assumption] | right; right; split; [lia|assumption]].
Qed.
Lemma met_refl p a : MetBefore p a a.
Proof using EqDecision0 ORD. destruct (met_total p a a); assumption. Qed.

(** the ring turned so that it starts at the first point not below [p] *)
Definition turned (p : Z) (l : list entry) : list entry :=
  drop (bisect_left p l) l ++ take (bisect_left p l) l.
Lemma turned_perm p l : turned p l ≡ₚ l.
Proof. unfold turned. rewrite Permutation_app_comm, take_drop. reflexivity. Qed.
Lemma turned_sorted p l : sorted l -> StronglySorted (MetBefore p) (turned p l).
Proof using EqDecision0 ORD.
  intros Hs. unfold turned. destruct (bisect_left_spec p l Hs) as (Hi & H1 & H2).
  set (i := bisect_left p l) in *. clearbody i.
  rewrite <- (take_drop i l) in Hs. destruct (sorted_app_inv _ _ Hs) as [Hs1 Hs2]. clear Hs.
  assert (HS : forall k, sorted k -> (forall a b, a ∈ k -> b ∈ k -> Before a b -> MetBefore p a b) ->
               StronglySorted (MetBefore p) k).
  { intros k Hk. induction Hk as [|x k Hk IH Hx]; intros H; [constructor|]. constructor.
    - apply IH. intros a b Ha Hb. apply H; right; assumption.
    - rewrite Forall_forall in *. intros b Hb. apply H; [left|right; exact Hb|apply Hx; exact Hb]. }
  assert (HA : forall k m, StronglySorted (MetBefore p) k -> StronglySorted (MetBefore p) m ->
    (forall a b, a ∈ k -> b ∈ m -> MetBefore p a b) -> StronglySorted (MetBefore p) (k ++ m)).
  { intros k m Hk Hm H. induction Hk as [|x k Hk IH Hx]; cbn; [exact Hm|]. constructor.
    - apply IH. intros. apply H; [right|]; assumption.
    - apply Forall_app. split; [exact Hx|]. apply Forall_forall. intros b Hb. apply H; [left|exact Hb]. }
  apply HA.
  - apply HS; [exact Hs2|]. intros a b Ha Hb Hab. apply H2 in Ha, Hb. right. auto.
  - apply HS; [exact Hs1|]. intros a b Ha Hb Hab. apply H1 in Ha, Hb. right. auto.
  - intros a b Ha Hb. apply H2 in Ha. apply H1 in Hb. left. auto.
Qed.
Lemma met_sorted_unique p l k : StronglySorted (MetBefore p) l -> StronglySorted (MetBefore p) k -> l ≡ₚ k -> l = k.
Proof using EqDecision0 ORD.
  revert k. induction l as [|x l IH]; intros k Hl Hk HP.
  - apply Permutation_nil in HP. congruence.
  - destruct k as [|y k]; [apply Permutation_sym, Permutation_nil in HP; discriminate|].
    inversion Hl as [|? ? Hl1 Hl2]; subst. inversion Hk as [|? ? Hk1 Hk2]; subst.
    assert (x = y).
    { assert (Hx : x ∈ y :: k) by (rewrite <- HP; left).
      assert (Hy : y ∈ x :: l) by (rewrite HP; left).
      apply elem_of_cons in Hx as [->|Hx]; [reflexivity|]. apply elem_of_cons in Hy as [->|Hy]; [reflexivity|].
      rewrite Forall_forall in Hl2, Hk2. apply (met_antisym p); auto. }
    subst y. f_equal. apply IH; auto. eapply Permutation_cons_inv; eauto.
Qed.

Lemma owner_unique pts pts' p n m : (forall a, a ∈ pts <-> a ∈ pts') -> owner nlt pts p n -> owner nlt pts' p m -> n = m.
Proof using EqDecision0 ORD.
  intros Heq [q [Hq Hq']] [q' [Hm Hm']]. apply Heq in Hm as Hm2. apply Heq in Hq as Hq2.
  specialize (Hq' _ Hm2). specialize (Hm' _ Hq2). pose proof (met_antisym _ _ _ Hq' Hm') as H. congruence.
Qed.

(** ** getting a node *)
Lemma turned_lookup p l k : sorted l -> (k < length l)%nat ->
  l !! ((bisect_left p l + k) mod length l)%nat = turned p l !! k.
Proof using EqDecision0 ORD.
  intros Hs Hk. unfold turned. destruct (bisect_left_spec p l Hs) as (Hi & _ & _).
  set (i := bisect_left p l) in *. clearbody i.
  destruct (decide (i + k < length l)%nat) as [H|H].
  - rewrite Nat.mod_small by exact H. rewrite lookup_app_l by (rewrite drop_length; lia).
    rewrite lookup_drop. reflexivity.
  - replace (i + k)%nat with ((i + k - length l) + 1 * length l)%nat by lia.
    rewrite Nat.mod_add by lia. rewrite Nat.mod_small by lia.
    rewrite lookup_app_r by (rewrite drop_length; lia). rewrite drop_length.
    rewrite lookup_take by lia. f_equal. lia.
Qed.
Lemma turned_length p l : length (turned p l) = length l.
Proof. apply Permutation_length, turned_perm. Qed.
Context (label : node -> str) (hash : str -> Z).
Lemma ascii_only_b s : ascii_only s <-> forallb is_ascii s = true.
Proof.
  unfold ascii_only. rewrite forallb_forall, Forall_forall. setoid_rewrite elem_of_list_In.
  unfold is_ascii. setoid_rewrite Z.ltb_lt. reflexivity.
Qed.

Lemma get_node_turned (r : ring node) key : sorted (r_ring r) -> r_ring r <> [] -> ascii_only key ->
  exists a l, turned (hash key) (r_ring r) = a :: l /\ get_node hash r key = Ok (snd a).
Proof using EqDecision0 ORD.
  intros Hs Hne Hk. unfold get_node, compute_ring_position. apply ascii_only_b in Hk. rewrite Hk.
  pose proof (turned_lookup (hash key) (r_ring r) 0 Hs) as HL.
  pose proof (turned_length (hash key) (r_ring r)) as HT.
  destruct (r_ring r) as [|e l0] eqn:E; [contradiction|]. rewrite <- E in *.
  assert (Hlen : (0 < length (r_ring r))%nat) by (rewrite E; cbn; lia).
  specialize (HL Hlen). rewrite Nat.add_0_r in HL.
  unfold pymod. destruct (length (r_ring r)) as [|n] eqn:El; [lia|].
  rewrite HL. destruct (turned (hash key) (r_ring r)) as [|a l] eqn:Et; [cbn in HT; lia|].
  exists a, l. split; reflexivity.
Qed.

Lemma get_node_owner (r : ring node) key : sorted (r_ring r) -> r_ring r <> [] -> ascii_only key ->
  exists n, get_node hash r key = Ok n /\ owner nlt (r_ring r) (hash key) n.
Proof using EqDecision0 ORD.
  intros Hs Hne Hk. destruct (get_node_turned r key Hs Hne Hk) as (a & l & Ht & Hg).
  exists (snd a). split; [exact Hg|]. exists (fst a). replace (fst a, snd a) with a by (destruct a; reflexivity).
  pose proof (turned_sorted (hash key) _ Hs) as HS. rewrite Ht in HS.
  pose proof (turned_perm (hash key) (r_ring r)) as HP. rewrite Ht in HP.
  split; [rewrite <- HP; left|]. intros b Hb. rewrite <- HP in Hb.
  inversion HS as [|? ? H1 H2]; subst. apply elem_of_cons in Hb as [->|Hb]; [apply met_refl|].
  rewrite Forall_forall in H2. apply H2. exact Hb.
Qed.

(** ** the ring after any calls *)
Notation Points := (points label hash).

Lemma show_N_ascii n : ascii_only (show_N n).
Proof.
  unfold ascii_only, show_N. generalize (S (N.size_nat n)). intros f. revert n.
  assert (Hd : forall d, (d < 10)%N -> code (digit_char d) < 128).
  { intros d Hd. unfold code, digit_char. rewrite N_ascii_embedding by lia. lia. }
  induction f as [|f IH]; intros n; cbn [digits_fuel]; [constructor|].
  destruct (N.ltb_spec n 10); [constructor; [apply Hd; assumption|constructor]|].
  apply Forall_app. split; [apply IH|]. constructor; [|constructor]. apply Hd.
  apply N.mod_upper_bound. lia.
Qed.

Lemma replica_key_ascii n i : ascii_only (label n) -> forallb is_ascii (replica_key label n i) = true.
Proof.
  intros H. apply ascii_only_b. unfold replica_key, ascii_only in *. rewrite !Forall_app.
  split; [exact H|]. split; [constructor; [reflexivity|constructor]|]. apply show_N_ascii.
Qed.

Lemma add_replicas_ok n is (r : ring node) : ascii_only (label n) -> sorted (r_ring r) ->
  exists r', add_replicas label nlt hash n is r = (r', Ok tt) /\ sorted (r_ring r') /\
    r_nodes r' = r_nodes r /\ r_count r' = r_count r /\
    r_ring r' ≡ₚ map (fun i => (hash (label n ++ B ":" ++ show_N (N.of_nat i)), n)) is ++ r_ring r.
Proof using EqDecision0 ORD.
  intros Hl. revert r. induction is as [|i is IH]; intros r Hs; cbn [add_replicas].
  - exists r. repeat split; auto.
  - unfold bnd at 1. unfold lift_, compute_ring_position. rewrite replica_key_ascii by exact Hl.
    unfold bnd at 1. unfold mod_.
    destruct (IH (Ring (insort_entry nlt (hash (replica_key label n i), n) (r_ring r)) (r_nodes r) (r_count r)))
      as (r' & H1 & H2 & H3 & H4 & H5).
    { cbn. apply insort_sorted. exact Hs. }
    exists r'. split; [exact H1|]. split; [exact H2|]. split; [exact H3|]. split; [exact H4|].
    rewrite H5. cbn [r_ring map app]. rewrite insort_perm.
    change (replica_key label n i) with (label n ++ B ":" ++ show_N (N.of_nat i)).
    symmetry. apply Permutation_middle.
Qed.

Lemma add_node_ok n (r : ring node) : ascii_only (label n) -> sorted (r_ring r) ->
  exists r', add_node label nlt hash n r = (r', Ok tt) /\ sorted (r_ring r') /\
    r_nodes r' = set_add n (r_nodes r) /\ r_count r' = r_count r /\
    r_ring r' ≡ₚ Points (r_count r) n ++ r_ring r.
Proof using EqDecision0 ORD.
  intros Hl Hs. unfold add_node, bnd, mod_, get_. cbn [r_count].
  destruct (add_replicas_ok n (seq 0 (r_count r)) (Ring (r_ring r) (set_add n (r_nodes r)) (r_count r)) Hl Hs)
    as (r' & H1 & H2 & H3 & H4 & H5).
  exists r'. repeat split; auto.
Qed.

Lemma sorted_filter P `{!forall x, Decision (P x)} l : sorted l -> sorted (filter P l).
Proof.
  intros Hs. induction Hs as [|x l Hs IH Hx]; [constructor|]. rewrite filter_cons. destruct (decide (P x)); [|exact IH].
  constructor; [exact IH|]. rewrite Forall_forall in *. intros y Hy. apply elem_of_list_filter in Hy as [_ Hy]. auto.
Qed.

Lemma filter_points count n m : filter (fun e => snd e <> m) (Points count n) = if decide (n = m) then [] else Points count n.
Proof.
  unfold points. induction (seq 0 count) as [|i is IH]; cbn [map]; [destruct (decide _); reflexivity|].
  rewrite filter_cons. cbn [snd]. destruct (decide (n = m)) as [->|Hn].
  - destruct (decide (m <> m)) as [H|]; [contradiction|]. rewrite IH. reflexivity.
  - destruct (decide (n <> m)); [|contradiction]. rewrite IH. reflexivity.
Qed.
Lemma filter_all_points count ns m :
  filter (fun e => snd e <> m) (flat_map (Points count) ns) =
  flat_map (Points count) (filter (fun n => n <> m) ns).
Proof.
  induction ns as [|n ns IH]; [reflexivity|]. cbn [flat_map]. rewrite filter_app, IH, filter_points.
  rewrite filter_cons. destruct (decide (n = m)) as [E|E]; destruct (decide (n <> m)); try contradiction; reflexivity.
Qed.

Definition ring_inv (count : nat) (ns : list node) (r : ring node) : Prop :=
  sorted (r_ring r) /\ r_ring r ≡ₚ flat_map (Points count) ns /\ r_count r = count /\
  NoDup (r_nodes r) /\ (forall n, n ∈ r_nodes r <-> n ∈ ns).

Lemma set_add_spec (n : node) l : NoDup l -> NoDup (set_add n l) /\ forall m, m ∈ set_add n l <-> m = n \/ m ∈ l.
Proof.
  intros H. unfold set_add. destruct (decide (n ∈ l)) as [Hn|Hn].
  - split; [exact H|]. intros m. split; [auto|]. intros [->|]; auto.
  - split.
    + apply NoDup_app. split; [exact H|]. split; [|apply NoDup_singleton].
      intros x Hx Hx'. apply elem_of_list_singleton in Hx'. subst. contradiction.
    + intros m. rewrite elem_of_app, elem_of_list_singleton. tauto.
Qed.

Lemma perform_inv count ops : Forall (fun o => match o with AddNode n => ascii_only (label n) | _ => True end) ops ->
  forall ns r, ring_inv count ns r ->
  exists r', perform label nlt hash ops r = (r', Ok tt) /\
    ring_inv count (fold_left (fun l o => match o with AddNode n => n :: l | RemoveNode n => filter (fun m => m <> n) l end) ops ns) r'.
Proof using EqDecision0 ORD.
  intros Hall. induction Hall as [|o ops Ho Hall IH]; intros ns r Hr; cbn [perform fold_left].
  - exists r. split; [reflexivity|exact Hr].
  - destruct Hr as (Hs & Hp & Hc & Hnd & Hn). destruct o as [n|n].
    + destruct (add_node_ok n r Ho Hs) as (r1 & H1 & H2 & H3 & H4 & H5).
      unfold bnd. rewrite H1. apply IH. split; [exact H2|]. split; [rewrite H5, Hp, Hc; reflexivity|].
      split; [congruence|]. destruct (set_add_spec n (r_nodes r) Hnd) as [Hd Hm]. rewrite H3. split; [exact Hd|].
      intros m. rewrite Hm, elem_of_cons, Hn. reflexivity.
    + unfold bnd, remove_node, mod_. apply IH. split; [cbn; apply sorted_filter; exact Hs|]. cbn.
      split; [rewrite Hp; rewrite filter_all_points; reflexivity|]. split; [exact Hc|].
      split; [apply NoDup_filter; exact Hnd|]. intros m. rewrite !elem_of_list_filter, Hn. reflexivity.
Qed.
Lemma empty_inv count : ring_inv count [] (Ring [] [] count).
Proof. split; [constructor|]. split; [reflexivity|]. split; [reflexivity|]. split; [constructor|]. reflexivity. Qed.

Lemma perform_present count ops : Forall (fun o => match o with AddNode n => ascii_only (label n) | _ => True end) ops ->
  exists r, perform label nlt hash ops (Ring [] [] count) = (r, Ok tt) /\ ring_inv count (present ops) r.
Proof using EqDecision0 ORD. intros H. apply (perform_inv count ops H [] _ (empty_inv count)). Qed.

(** ** failing additions *)
Lemma add_node_non_ascii n (r : ring node) : ~ ascii_only (label n) -> (0 < r_count r)%nat ->
  add_node label nlt hash n r = (Ring (r_ring r) (set_add n (r_nodes r)) (r_count r), Exn UnicodeDecodeError).
Proof.
  intros Hl Hc. unfold add_node, bnd, mod_, get_. cbn [r_count]. destruct (r_count r) as [|k] eqn:E; [lia|].
  cbn [seq add_replicas]. unfold bnd at 1, lift_, compute_ring_position.
  destruct (forallb is_ascii (replica_key label n 0)) eqn:Hf; [|reflexivity]. exfalso. apply Hl.
  apply ascii_only_b in Hf. unfold replica_key, ascii_only in Hf. apply Forall_app in Hf. apply Hf.
Qed.

(** ** adding and removing *)
Lemma owner_add pts extra p n m k : Forall (fun e => snd e = m) extra ->
  owner nlt pts p n -> owner nlt (extra ++ pts) p k -> k = n \/ k = m.
Proof using EqDecision0 ORD.
  intros Hx [q [Hq Hq']] [q' [Hk Hk']]. apply elem_of_app in Hk as [Hk|Hk].
  - rewrite Forall_forall in Hx. apply Hx in Hk. cbn in Hk. right. exact Hk.
  - left. specialize (Hq' _ Hk). specialize (Hk' (q, n)). rewrite elem_of_app in Hk'. specialize (Hk' (or_intror Hq)).
    pose proof (met_antisym _ _ _ Hq' Hk'). congruence.
Qed.
Lemma owner_remove pts p n m : owner nlt pts p n -> n <> m -> owner nlt (filter (fun e => snd e <> m) pts) p n.
Proof.
  intros [q [Hq Hq']] Hn. exists q. split; [apply elem_of_list_filter; auto|].
  intros b Hb. apply elem_of_list_filter in Hb as [_ Hb]. auto.
Qed.
Lemma owner_perm pts pts' p n : (forall a, a ∈ pts <-> a ∈ pts') -> owner nlt pts p n -> owner nlt pts' p n.
Proof. intros H [q [Hq Hq']]. exists q. split; [apply H; exact Hq|]. intros b Hb. apply Hq', H, Hb. Qed.

(** ** preference lists *)
Lemma firsts_seen_ext s1 s2 l : (forall x : node, x ∈ s1 <-> x ∈ s2) -> firsts s1 l = firsts s2 l.
Proof.
  revert s1 s2. induction l as [|n l IH]; intros s1 s2 H; cbn; [reflexivity|].
  destruct (decide (n ∈ s1)) as [H1|H1], (decide (n ∈ s2)) as [H2|H2]; try (exfalso; apply H in H1 || apply H in H2; contradiction).
  - apply IH, H.
  - f_equal. apply IH. intros x. rewrite !elem_of_cons, H. reflexivity.
Qed.
Lemma firsts_in s l (x : node) : x ∈ firsts s l <-> x ∈ l /\ x ∉ s.
Proof.
  revert s. induction l as [|n l IH]; intros s; cbn.
  - split; [intros H; apply elem_of_nil in H; contradiction|intros [H _]; apply elem_of_nil in H; contradiction].
  - destruct (decide (n ∈ s)) as [Hn|Hn].
    + rewrite IH, elem_of_cons. split; [intros []; auto|]. intros [[->|H] H']; [contradiction|auto].
    + rewrite !elem_of_cons, IH, elem_of_cons. split.
      * intros [->|[H1 H2]]; [auto|]. split; [auto|]. intros H. apply H2. right. exact H.
      * intros [[->|H1] H2]; [auto|]. destruct (decide (x = n)) as [->|Hx]; [auto|]. right. split; [auto|].
        intros [H|H]; contradiction.
Qed.
Lemma firsts_nodup s (l : list node) : NoDup (firsts s l).
Proof.
  revert s. induction l as [|n l IH]; intros s; cbn; [constructor|]. destruct (decide (n ∈ s)); [apply IH|].
  constructor; [|apply IH]. rewrite firsts_in. intros [_ H]. apply H. left.
Qed.
Lemma firsts_app s (l k : list node) : firsts s (l ++ k) = firsts s l ++ firsts (s ++ l) k.
Proof.
  revert s. induction l as [|n l IH]; intros s; cbn; [rewrite app_nil_r; reflexivity|].
  destruct (decide (n ∈ s)) as [H|H].
  - rewrite IH. f_equal. apply firsts_seen_ext. intros x. rewrite !elem_of_app, elem_of_cons. split; [intuition|].
    intros [?|[->|?]]; auto.
  - cbn. f_equal. rewrite IH. f_equal. apply firsts_seen_ext. intros x. rewrite !elem_of_app, !elem_of_cons. tauto.
Qed.
Lemma firsts_nil s (l : list node) : (forall x, x ∈ l -> x ∈ s) -> firsts s l = [].
Proof.
  intros H. destruct (firsts s l) as [|x k] eqn:E; [reflexivity|]. exfalso.
  assert (Hx : x ∈ firsts s l) by (rewrite E; left). apply firsts_in in Hx as [H1 H2]. auto.
Qed.

Lemma walk_spec (r : ring node) p fuel k acc : sorted (r_ring r) ->
  NoDup (r_nodes r) -> (forall e, e ∈ r_ring r -> snd e ∈ r_nodes r) -> NoDup acc -> (forall x, x ∈ acc -> x ∈ r_nodes r) ->
  (k < length (r_ring r))%nat -> (length (r_ring r) - 1 - k <= fuel)%nat ->
  walk fuel r ((bisect_left p (r_ring r) + k) mod length (r_ring r))
       ((bisect_left p (r_ring r) + (length (r_ring r) - 1)) mod length (r_ring r)) acc
  = Ok (acc ++ firsts acc (map snd (take (length (r_ring r) - 1 - k) (drop k (turned p (r_ring r)))))).
Proof using EqDecision0 ORD.
  clear label hash. intros Hs Hnd Hin. revert k acc. induction fuel as [|f IH]; intros k acc Hacc Hsub Hk Hf.
  - replace (length (r_ring r) - 1 - k)%nat with 0%nat by lia. cbn. rewrite app_nil_r. reflexivity.
  - cbn [walk]. destruct (decide (k = length (r_ring r) - 1)%nat) as [->|Hne].
    + rewrite Nat.eqb_refl, andb_false_r. rewrite Nat.sub_diag. cbn. rewrite app_nil_r. reflexivity.
    + assert (Hidx : (((bisect_left p (r_ring r) + k) mod length (r_ring r) =?
                       (bisect_left p (r_ring r) + (length (r_ring r) - 1)) mod length (r_ring r)) = false)%nat).
      { apply Nat.eqb_neq. destruct (bisect_left_spec p _ Hs) as (Hi & _ & _).
        set (i := bisect_left p (r_ring r)) in *. set (n := length (r_ring r)) in *.
        assert (Hcase : forall j, (j < n)%nat -> ((i + j) mod n = if decide (i + j < n) then i + j else i + j - n)%nat).
        { intros j Hj. destruct (decide (i + j < n)%nat); [apply Nat.mod_small; assumption|].
          replace (i + j)%nat with ((i + j - n) + 1 * n)%nat at 1 by lia. rewrite Nat.mod_add by lia. apply Nat.mod_small. lia. }
        rewrite !Hcase by lia. destruct (decide (i + k < n)%nat), (decide (i + (n - 1) < n)%nat); lia. }
      rewrite Hidx. cbn [negb andb]. rewrite andb_true_r.
      assert (Hdrop : drop k (turned p (r_ring r)) = match turned p (r_ring r) !! k with Some e => e :: drop (S k) (turned p (r_ring r)) | None => [] end).
      { destruct (turned p (r_ring r) !! k) as [e|] eqn:E; [apply drop_S; exact E|]. apply drop_ge. apply lookup_ge_None. exact E. }
      destruct (lookup_lt_is_Some_2 (turned p (r_ring r)) k) as [e He]; [rewrite turned_length; exact Hk|].
      rewrite He in Hdrop.
      assert (Hrin : snd e ∈ r_nodes r).
      { apply Hin. rewrite <- (turned_perm p). eapply elem_of_list_lookup_2; exact He. }
      replace (length (r_ring r) - 1 - k)%nat with (S (length (r_ring r) - 1 - S k)) by lia.
      rewrite Hdrop. cbn [take map firsts].
      destruct (Nat.ltb_spec (length acc) (length (r_nodes r))) as [Hlt|Hge].
      * rewrite turned_lookup by assumption. rewrite He.
        assert (Hmod : pymod (S ((bisect_left p (r_ring r) + k) mod length (r_ring r))) (length (r_ring r))
                       = Ok ((bisect_left p (r_ring r) + S k) mod length (r_ring r))%nat).
        { unfold pymod. destruct (length (r_ring r)) as [|n] eqn:E; [lia|]. f_equal.
          replace (bisect_left p (r_ring r) + S k)%nat with (bisect_left p (r_ring r) + k + 1)%nat by lia.
          rewrite <- (Nat.add_mod_idemp_l (bisect_left p (r_ring r) + k) 1) by lia. f_equal. lia. }
        rewrite Hmod. destruct (decide (snd e ∈ acc)) as [Ha|Ha].
        -- rewrite IH; [reflexivity|assumption|assumption|lia|lia].
        -- rewrite IH; [|apply NoDup_app; split; [assumption|split; [|apply NoDup_singleton]]| |lia|lia].
           ++ rewrite <- app_assoc. cbn [app]. f_equal. f_equal. f_equal. apply firsts_seen_ext. intros x. rewrite elem_of_app, elem_of_list_singleton, elem_of_cons. tauto.
           ++ intros x Hx Hx'. apply elem_of_list_singleton in Hx'. subst. contradiction.
           ++ intros x Hx. apply elem_of_app in Hx as [Hx|Hx]; [auto|]. apply elem_of_list_singleton in Hx. subst. exact Hrin.
      * (* every node has been found *)
        assert (Hall : forall x, x ∈ r_nodes r -> x ∈ acc).
        { intros x Hx. destruct (decide (x ∈ acc)); [assumption|]. exfalso.
          assert (HH : (length (x :: acc) <= length (r_nodes r))%nat).
          { apply submseteq_length, NoDup_submseteq; [constructor; assumption|].
            intros y Hy. apply elem_of_cons in Hy as [->|Hy]; auto. }
          cbn in HH. lia. }
        destruct (decide (snd e ∈ acc)) as [Ha|Ha]; [|destruct Ha; auto].
        rewrite firsts_nil; [rewrite app_nil_r; reflexivity|]. intros x Hx. apply Hall.
        apply elem_of_list_In, in_map_iff in Hx as (e' & <- & He'). apply Hin. rewrite <- (turned_perm p).
        apply elem_of_list_In in He'. apply elem_of_take in He' as (j & Hj & _). rewrite lookup_drop in Hj. eapply elem_of_list_lookup_2. exact Hj.
Qed.

Lemma get_nodes_spec (r : ring node) key : sorted (r_ring r) -> NoDup (r_nodes r) ->
  (forall e, e ∈ r_ring r -> snd e ∈ r_nodes r) -> r_ring r <> [] -> ascii_only key ->
  get_nodes hash r key = Ok (firsts [] (map snd (removelast (turned (hash key) (r_ring r))))).
Proof using EqDecision0 ORD.
  intros Hs Hnd Hin Hne Hk. unfold get_nodes, compute_ring_position. rewrite (proj1 (ascii_only_b key) Hk).
  assert (Hlen : (0 < length (r_ring r))%nat) by (destruct (r_ring r); [contradiction|cbn; lia]).
  unfold pymod at 1. destruct (length (r_ring r)) as [|n] eqn:El; [lia|]. rewrite <- El in *.
  assert (Hlast : pymod (bisect_left (hash key) (r_ring r) mod length (r_ring r) + length (r_ring r) - 1) (length (r_ring r))
                  = Ok ((bisect_left (hash key) (r_ring r) + (length (r_ring r) - 1)) mod length (r_ring r))%nat).
  { unfold pymod. rewrite El. rewrite <- El. f_equal.
    rewrite <- (Nat.add_mod_idemp_l (bisect_left (hash key) (r_ring r)) (length (r_ring r) - 1)) by lia.
    f_equal. lia. }
  rewrite Hlast.
  pose proof (walk_spec r (hash key) (length (r_ring r)) 0 [] Hs Hnd Hin) as HW. rewrite Nat.add_0_r in HW.
  rewrite HW; [|constructor|intros x Hx; apply elem_of_nil in Hx; contradiction|lia|lia].
  cbn [app drop]. rewrite Nat.sub_0_r. f_equal. f_equal. f_equal.
  rewrite removelast_firstn_len, turned_length. replace (pred (length (r_ring r))) with (length (r_ring r) - 1)%nat by lia. reflexivity.
Qed.
End facts.
