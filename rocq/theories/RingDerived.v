(** The statements of Props_Ring.v, derived from HashFacts.v. *)
From Verif Require Import Base StrFacts Hashing HashFacts.

Section derived.
Context {node : Type} `{!EqDecision node}.
Context (label : node -> str) (nlt : node -> node -> bool) (hash : str -> Z).
Context (ORD : node_order nlt).

Definition labels_ok (ops : list (rop (node := node))) : Prop :=
  forall n, AddNode n ∈ ops -> ascii_only (label n).
Definition made_by (count : nat) (ops : list (rop (node := node))) (r : ring node) : Prop :=
  perform label nlt hash ops (Ring [] [] count) = (r, Ok tt).
Definition all_points (count : nat) (ops : list (rop (node := node))) : list (Z * node) :=
  flat_map (points label hash count) (present ops).

Lemma labels_ok_forall ops : labels_ok ops ->
  Forall (fun o => match o with AddNode n => ascii_only (label n) | _ => True end) ops.
Proof. intros H. apply Forall_forall. intros [n|n] Hn; [apply H; exact Hn|exact I]. Qed.

Lemma made_inv count ops r : labels_ok ops -> made_by count ops r -> ring_inv nlt label hash count (present ops) r.
Proof using ORD EqDecision0.
  intros Hl Hm. destruct (perform_present nlt ORD label hash count ops (labels_ok_forall _ Hl)) as (r' & H1 & H2).
  unfold made_by in Hm. rewrite Hm in H1. injection H1 as <-. exact H2.
Qed.

Lemma complete count ops : labels_ok ops ->
  exists r, made_by count ops r /\ StronglySorted (before nlt) (r_ring r) /\
    r_ring r ≡ₚ all_points count ops /\ NoDup (r_nodes r) /\ (forall n, n ∈ r_nodes r <-> n ∈ present ops).
Proof using ORD EqDecision0.
  intros Hl. destruct (perform_present nlt ORD label hash count ops (labels_ok_forall _ Hl)) as (r & H1 & H2).
  exists r. destruct H2 as (? & ? & ? & ? & ?). split; [exact H1|]. auto.
Qed.
Lemma constructor ns count : ring_init label nlt hash ns count = perform label nlt hash (map AddNode ns) (Ring [] [] count).
Proof.
  unfold ring_init. generalize (Ring (node := node) [] [] count). induction ns as [|n ns IH]; intros r; cbn; [reflexivity|].
  unfold bnd. destruct (add_node label nlt hash n r) as [r' [[]|e]]; [apply IH|reflexivity].
Qed.
Lemma failed_add n r : ~ ascii_only (label n) -> (0 < r_count r)%nat ->
  exists r', add_node label nlt hash n r = (r', Exn UnicodeDecodeError) /\ r_ring r' = r_ring r /\ n ∈ r_nodes r'.
Proof.
  intros Hl Hc. eexists. split; [apply add_node_non_ascii; assumption|]. split; [reflexivity|]. cbn.
  unfold set_add. destruct (decide (n ∈ r_nodes r)); [assumption|]. apply elem_of_app. right. apply elem_of_list_singleton. reflexivity.
Qed.

Lemma points_nonempty count ops : (0 < count)%nat -> present ops <> [] -> all_points count ops <> [].
Proof.
  unfold all_points. destruct (present ops) as [|n ns]; [contradiction|]. intros Hc _. cbn.
  unfold points. destruct count as [|c]; [lia|]. cbn. discriminate.
Qed.
Lemma in_points count ops e : e ∈ all_points count ops -> snd e ∈ present ops.
Proof.
  unfold all_points. intros H. apply elem_of_list_In, in_flat_map in H as (n & Hn & He).
  unfold points in He. apply in_map_iff in He as (i & <- & _). cbn. apply elem_of_list_In. exact Hn.
Qed.
Lemma perm_nonempty {A} (l k : list A) : l ≡ₚ k -> k <> [] -> l <> [].
Proof. intros H Hk ->. apply Permutation_nil in H. contradiction. Qed.
Lemma perm_in {A} (l k : list A) : l ≡ₚ k -> forall a, a ∈ l <-> a ∈ k.
Proof. intros H a. rewrite H. reflexivity. Qed.

Lemma owner_is count ops r key : labels_ok ops -> made_by count ops r -> (0 < count)%nat -> present ops <> [] -> ascii_only key ->
  exists n, get_node hash r key = Ok n /\ n ∈ present ops /\ owner nlt (all_points count ops) (hash key) n.
Proof using ORD EqDecision0.
  intros Hl Hm Hc Hp Hk. destruct (made_inv _ _ _ Hl Hm) as (Hs & HP & _ & _ & _).
  destruct (get_node_owner nlt ORD hash r key Hs) as (n & Hg & Ho).
  - apply (perm_nonempty _ _ HP). apply points_nonempty; assumption.
  - exact Hk.
  - exists n. split; [exact Hg|].
    assert (Ho' : owner nlt (all_points count ops) (hash key) n) by (apply (owner_perm nlt _ _ _ _ (perm_in _ _ HP)); exact Ho).
    split; [|exact Ho']. destruct Ho' as [q [Hq _]]. apply in_points in Hq. exact Hq.
Qed.
Lemma all_points_in count ops e : e ∈ all_points count ops <-> exists n, n ∈ present ops /\ e ∈ points label hash count n.
Proof.
  unfold all_points. rewrite elem_of_list_In, in_flat_map. setoid_rewrite elem_of_list_In. reflexivity.
Qed.
Lemma order_free count ops ops' r r' key : labels_ok ops -> labels_ok ops' -> made_by count ops r -> made_by count ops' r' ->
  (0 < count)%nat -> (forall n, n ∈ present ops <-> n ∈ present ops') -> get_node hash r key = get_node hash r' key.
Proof using ORD EqDecision0.
  intros Hl Hl' Hm Hm' Hc Heq.
  assert (Hpts : forall e, e ∈ all_points count ops <-> e ∈ all_points count ops').
  { intros e. rewrite !all_points_in. setoid_rewrite Heq. reflexivity. }
  destruct (forallb is_ascii key) eqn:Ek.
  - apply ascii_only_b in Ek. destruct (present ops) as [|n ns] eqn:Ep.
    + destruct (present ops') as [|n' ns'] eqn:Ep'; [|exfalso; specialize (Heq n'); assert (n' ∈ []) as H by (apply Heq; left); apply elem_of_nil in H; contradiction].
      destruct (made_inv _ _ _ Hl Hm) as (_ & HP & _). destruct (made_inv _ _ _ Hl' Hm') as (_ & HP' & _).
      rewrite Ep in HP. rewrite Ep' in HP'. cbn in HP, HP'. apply Permutation_sym, Permutation_nil in HP.
      apply Permutation_sym, Permutation_nil in HP'. unfold get_node. rewrite HP, HP'. reflexivity.
    + destruct (owner_is count ops r key Hl Hm Hc) as (m & Hg & _ & Ho); [rewrite Ep; discriminate|assumption|].
      destruct (owner_is count ops' r' key Hl' Hm' Hc) as (m' & Hg' & _ & Ho'); [|assumption|].
      { intros H. rewrite H in Heq. specialize (Heq n). assert (n ∈ []) as H' by (apply Heq; left). apply elem_of_nil in H'. contradiction. }
      rewrite Hg, Hg'. f_equal. apply (owner_unique nlt ORD _ _ _ _ _ Hpts Ho Ho').
  - unfold get_node, compute_ring_position. rewrite Ek.
    destruct (made_inv _ _ _ Hl Hm) as (_ & HP & _). destruct (made_inv _ _ _ Hl' Hm') as (_ & HP' & _).
    destruct (r_ring r) as [|e l] eqn:E, (r_ring r') as [|e' l'] eqn:E'; try reflexivity; exfalso.
    + assert (H : e' ∈ all_points count ops') by (rewrite <- (perm_in _ _ HP'); left). apply Hpts in H.
      rewrite <- (perm_in _ _ HP) in H. apply elem_of_nil in H. contradiction.
    + assert (H : e ∈ all_points count ops) by (rewrite <- (perm_in _ _ HP); left). apply Hpts in H.
      rewrite <- (perm_in _ _ HP') in H. apply elem_of_nil in H. contradiction.
Qed.

Lemma present_app ops (o : rop (node := node)) : present (ops ++ [o]) = match o with AddNode n => n :: present ops | RemoveNode n => filter (fun m => m <> n) (present ops) end.
Proof. unfold present. rewrite fold_left_app. destruct o; reflexivity. Qed.

Lemma add_moves count ops r m r' key n n' : labels_ok (ops ++ [AddNode m]) -> made_by count ops r -> made_by count (ops ++ [AddNode m]) r' ->
  get_node hash r key = Ok n -> get_node hash r' key = Ok n' -> n' = n \/ n' = m.
Proof using ORD EqDecision0.
  intros Hl' Hm Hm' Hg Hg'.
  assert (Hl : labels_ok ops) by (intros x Hx; apply Hl'; apply elem_of_app; left; exact Hx).
  destruct (made_inv _ _ _ Hl Hm) as (Hs & HP & _). destruct (made_inv _ _ _ Hl' Hm') as (Hs' & HP' & _).
  assert (Hk : ascii_only key).
  { apply ascii_only_b. unfold get_node, compute_ring_position in Hg. destruct (r_ring r); [discriminate|].
    destruct (forallb is_ascii key); [reflexivity|discriminate]. }
  assert (Hne : r_ring r <> []) by (intros E; unfold get_node in Hg; rewrite E in Hg; discriminate).
  assert (Hne' : r_ring r' <> []) by (intros E; unfold get_node in Hg'; rewrite E in Hg'; discriminate).
  destruct (get_node_owner nlt ORD hash r key Hs Hne Hk) as (x & Hx & Ho).
  destruct (get_node_owner nlt ORD hash r' key Hs' Hne' Hk) as (x' & Hx' & Ho').
  assert (x = n) by congruence. assert (x' = n') by congruence. subst x x'.
  apply (owner_add nlt ORD (all_points count ops) (points label hash count m) (hash key) n m n').
  - apply Forall_forall. intros e He. unfold points in He. apply elem_of_list_In, in_map_iff in He as (i & <- & _). reflexivity.
  - apply (owner_perm nlt _ _ _ _ (perm_in _ _ HP)). exact Ho.
  - rewrite present_app in HP'. apply (owner_perm nlt _ _ _ _ (perm_in _ _ HP')). exact Ho'.
Qed.
Lemma remove_keeps count ops r m r' key n : labels_ok ops -> made_by count ops r -> made_by count (ops ++ [RemoveNode m]) r' ->
  get_node hash r key = Ok n -> n <> m -> get_node hash r' key = Ok n.
Proof using ORD EqDecision0.
  intros Hl Hm Hm' Hg Hnm.
  assert (Hl' : labels_ok (ops ++ [RemoveNode m])).
  { intros x Hx. apply elem_of_app in Hx as [Hx|Hx]; [apply Hl; exact Hx|]. apply elem_of_list_singleton in Hx. discriminate. }
  destruct (made_inv _ _ _ Hl Hm) as (Hs & HP & _). destruct (made_inv _ _ _ Hl' Hm') as (Hs' & HP' & _).
  assert (Hk : ascii_only key).
  { apply ascii_only_b. unfold get_node, compute_ring_position in Hg. destruct (r_ring r); [discriminate|].
    destruct (forallb is_ascii key); [reflexivity|discriminate]. }
  assert (Hne : r_ring r <> []) by (intros E; unfold get_node in Hg; rewrite E in Hg; discriminate).
  destruct (get_node_owner nlt ORD hash r key Hs Hne Hk) as (x & Hx & Ho).
  assert (x = n) by congruence. subst x.
  assert (Ho2 : owner nlt (r_ring r') (hash key) n).
  { apply (owner_perm nlt (filter (fun e => snd e <> m) (r_ring r))); [|apply owner_remove; assumption].
    rewrite present_app in HP'. intros e. rewrite HP', <- filter_all_points, !elem_of_list_filter, HP. reflexivity. }
  destruct (get_node_owner nlt ORD hash r' key Hs') as (x' & Hx' & Ho').
  - destruct Ho2 as [q [Hq _]]. intros E. rewrite E in Hq. apply elem_of_nil in Hq. contradiction.
  - exact Hk.
  - rewrite Hx'. f_equal. apply (owner_unique nlt ORD (r_ring r') (r_ring r') (hash key)); [reflexivity|exact Ho'|exact Ho2].
Qed.

(** ** preference lists *)
Definition clockwise (pts : list (Z * node)) (p : Z) (l : list (Z * node)) : Prop :=
  l ≡ₚ pts /\ StronglySorted (met_before nlt p) l.

Lemma preference count ops r key : labels_ok ops -> made_by count ops r -> (0 < count)%nat -> present ops <> [] -> ascii_only key ->
  exists l, clockwise (all_points count ops) (hash key) l /\
    (forall l', clockwise (all_points count ops) (hash key) l' -> l' = l) /\
    get_nodes hash r key = Ok (firsts [] (map snd (removelast l))).
Proof using ORD EqDecision0.
  intros Hl Hm Hc Hp Hk. destruct (made_inv _ _ _ Hl Hm) as (Hs & HP & _ & Hnd & Hn).
  exists (turned (hash key) (r_ring r)).
  assert (Hcw : clockwise (all_points count ops) (hash key) (turned (hash key) (r_ring r))).
  { split; [rewrite turned_perm; exact HP|apply turned_sorted; assumption]. }
  split; [exact Hcw|]. split.
  - intros l' [H1 H2]. apply (met_sorted_unique nlt ORD (hash key)); [exact H2|apply Hcw|]. rewrite H1. symmetry. apply Hcw.
  - apply (get_nodes_spec nlt ORD hash); auto.
    + intros e He. apply Hn. apply (in_points count). unfold all_points. rewrite <- HP. exact He.
    + apply (perm_nonempty _ _ HP). apply points_nonempty; assumption.
Qed.
Lemma removelast_last {A} (l : list A) : l <> [] -> exists x, l = removelast l ++ [x].
Proof. intros H. destruct l as [|a l]; [contradiction|]. exists (List.last (a :: l) a). apply app_removelast_last. discriminate. Qed.

Lemma preference_facts count ops r key ns : labels_ok ops -> made_by count ops r -> (0 < count)%nat -> ascii_only key ->
  present ops <> [] -> get_nodes hash r key = Ok ns ->
  NoDup ns /\ (forall n, n ∈ ns -> n ∈ present ops) /\
  ((1 < length (present ops) * count)%nat -> exists n, head ns = Some n /\ get_node hash r key = Ok n) /\
  ((length (present ops) * count)%nat = 1%nat -> ns = []) /\
  ((1 < count)%nat -> forall n, n ∈ present ops -> n ∈ ns).
Proof using ORD EqDecision0.
  intros Hl Hm Hc Hk Hp Hg. destruct (preference count ops r key Hl Hm Hc Hp Hk) as (l & [HP HS] & Hu & Hgl).
  rewrite Hgl in Hg. injection Hg as <-.
  assert (Hlen : length l = (length (present ops) * count)%nat).
  { rewrite (Permutation_length HP). unfold all_points. clear. generalize (present ops). intros k. induction k as [|n ns IH]; [reflexivity|].
    cbn [flat_map]. rewrite app_length, IH. unfold points at 1. rewrite map_length, seq_length. cbn. lia. }
  assert (Hnel : l <> []).
  { intros E. rewrite E in HP. apply Permutation_nil in HP. apply (points_nonempty count ops Hc Hp HP). }
  destruct (removelast_last l Hnel) as [x Hx].
  split; [apply firsts_nodup|]. split; [|split; [|split]].
  - intros n Hn. apply firsts_in in Hn as [Hn _]. apply elem_of_list_In, in_map_iff in Hn as (e & <- & He).
    apply (in_points count). rewrite <- HP. rewrite Hx. apply elem_of_app. left. apply elem_of_list_In. exact He.
  - intros H1. destruct (made_inv _ _ _ Hl Hm) as (Hs & HPr & _).
    destruct (get_node_turned nlt ORD hash r key Hs) as (a & l' & Ht & Hga); [|exact Hk|].
    + apply (perm_nonempty _ _ HPr). apply points_nonempty; assumption.
    + assert (Hl' : turned (hash key) (r_ring r) = l).
      { apply Hu. split; [rewrite turned_perm; exact HPr|apply turned_sorted; assumption]. }
      exists (snd a). split; [|exact Hga]. rewrite <- Hl', Ht. destruct l' as [|b l'].
      * exfalso. rewrite <- Hl', Ht in Hlen. cbn in Hlen. lia.
      * cbn [removelast]. cbn [map firsts]. destruct (decide (snd a ∈ [])) as [Hi|]; [apply elem_of_nil in Hi; contradiction|]. reflexivity.
  - intros H1. rewrite H1 in Hlen. destruct l as [|a [|b l]]; cbn in Hlen; try lia. reflexivity.
  - intros H1 n Hn. apply firsts_in. split; [|apply not_elem_of_nil].
    apply elem_of_list_In, in_map_iff.
    (* the node has two points; at most one of them is the last *)
    assert (Hin : forall i, (i < count)%nat -> (hash (label n ++ B ":" ++ show_N (N.of_nat i)), n) ∈ l).
    { intros i Hi. rewrite HP. apply all_points_in. exists n. split; [exact Hn|]. unfold points.
      apply elem_of_list_In, in_map_iff. exists i. split; [reflexivity|]. apply in_seq. lia. }
    (* count occurrences *)
    assert (Hcnt : (2 <= length (filter (fun e => snd e = n) l))%nat).
    { rewrite HP. unfold all_points. apply elem_of_list_split in Hn as (l1 & l2 & ->).
      rewrite flat_map_app. cbn [flat_map]. rewrite !filter_app, !app_length.
      assert (Hf : filter (fun e : Z * node => snd e = n) (points label hash count n) = points label hash count n).
      { unfold points. induction (seq 0 count) as [|i is IH]; [reflexivity|]. cbn [map]. rewrite filter_cons. cbn [snd].
        destruct (decide (n = n)); [|contradiction]. rewrite IH. reflexivity. }
      rewrite Hf. assert (HL : length (points label hash count n) = count) by (unfold points; rewrite map_length, seq_length; reflexivity). lia. }
    rewrite Hx in Hcnt. rewrite filter_app, app_length in Hcnt.
    assert (Hone : (length (filter (fun e : Z * node => snd e = n) [x]) <= 1)%nat).
    { rewrite filter_cons, filter_nil. case_decide; cbn; lia. }
    destruct (filter (fun e : Z * node => snd e = n) (removelast l)) as [|e f] eqn:Ef; [cbn [List.length] in Hcnt; lia|].
    assert (He : e ∈ filter (fun e : Z * node => snd e = n) (removelast l)) by (rewrite Ef; left).
    apply elem_of_list_filter in He as [He1 He2]. exists e. split; [exact He1|]. apply elem_of_list_In. exact He2.
Qed.
Lemma preference_empty (r : ring node) key : r_ring r = [] -> ascii_only key -> get_nodes hash r key = Exn ZeroDivisionError /\ get_node hash r key = Exn AssertionError.
Proof.
  intros Hr Hk. apply ascii_only_b in Hk. unfold get_nodes, get_node, compute_ring_position. rewrite Hk, Hr. split; reflexivity.
Qed.

(** ** sharding *)
Lemma ascii_app (a b : str) : ascii_only (a ++ b) <-> ascii_only a /\ ascii_only b.
Proof. apply Forall_app. Qed.

Lemma shard_ok count ops r name rest : labels_ok ops -> made_by count ops r -> (0 < count)%nat -> present ops <> [] ->
  ascii_only name -> c_colon ∉ name ->
  exists n, shard_write hash r (name ++ B ":" ++ rest) = Ok [(n, name ++ B ":" ++ rest)] /\
    n ∈ present ops /\ owner nlt (all_points count ops) (hash name) n.
Proof using ORD EqDecision0.
  intros Hl Hm Hc Hp Ha Hn. destruct (owner_is count ops r name Hl Hm Hc Hp Ha) as (n & Hg & Hin & Ho).
  exists n. split; [|split; [exact Hin|exact Ho]]. unfold shard_write.
  assert (Hsp : split1 c_colon (name ++ B ":" ++ rest) = Some (name, rest)).
  { clear - Hn. induction name as [|c name IH]; [reflexivity|]. cbn [app split1].
    unfold eqc at 1. destruct (Ascii.eqb_spec c_colon c) as [<-|Hne]; [exfalso; apply Hn; left|].
    rewrite IH by (intros H; apply Hn; right; exact H). reflexivity. }
  rewrite Hsp, Hg. reflexivity.
Qed.
Lemma shard_no_colon (r : ring node) data : c_colon ∉ data -> shard_write hash r data = Exn ValueError.
Proof.
  intros Hn. unfold shard_write. assert (H : split1 c_colon data = None).
  { clear - Hn. induction data as [|c data IH]; [reflexivity|]. cbn [split1]. unfold eqc at 1.
    destruct (Ascii.eqb_spec c_colon c) as [<-|Hne]; [exfalso; apply Hn; left|].
    rewrite IH by (intros H; apply Hn; right; exact H). reflexivity. }
  rewrite H. reflexivity.
Qed.
Lemma shard_at_most_one (r : ring node) data l : shard_write hash r data = Ok l -> exists n, l = [(n, data)].
Proof.
  unfold shard_write. destruct (split1 c_colon data) as [[a b]|]; [|discriminate].
  destruct (get_node hash r a) as [n|]; [|discriminate]. intros [= <-]. eauto.
Qed.
Lemma split1_colon name rest : c_colon ∉ name -> split1 c_colon (name ++ B ":" ++ rest) = Some (name, rest).
Proof.
  intros Hn. induction name as [|c name IH]; [reflexivity|]. cbn [app split1].
  unfold eqc at 1. destruct (Ascii.eqb_spec c_colon c) as [<-|Hne]; [exfalso; apply Hn; left|].
  rewrite IH by (intros H; apply Hn; right; exact H). reflexivity.
Qed.
Lemma shard_stable (r : ring node) name rest rest' n data n' data' : c_colon ∉ name ->
  shard_write hash r (name ++ B ":" ++ rest) = Ok [(n, data)] ->
  shard_write hash r (name ++ B ":" ++ rest') = Ok [(n', data')] -> n = n' /\ data' = name ++ B ":" ++ rest'.
Proof.
  intros Hn. unfold shard_write. rewrite !split1_colon by exact Hn. destruct (get_node hash r name); [|discriminate].
  intros [= <- <-] [= <- <-]. auto.
Qed.
Lemma shard_each_once count ops r order : labels_ok ops -> made_by count ops r -> (forall l, order l ≡ₚ l) ->
  NoDup (shard_each order r) /\ forall n, n ∈ shard_each order r <-> n ∈ present ops.
Proof using ORD EqDecision0.
  intros Hl Hm Ho. destruct (made_inv _ _ _ Hl Hm) as (_ & _ & _ & Hnd & Hn). unfold shard_each.
  split; [rewrite Ho; exact Hnd|]. intros n. rewrite Ho. apply Hn.
Qed.
(** the ring of a sharding client *)
Lemma present_adds (ns : list node) : forall l : list node, fold_left (fun l o => match o with AddNode n => n :: l | RemoveNode n => filter (fun m => m <> n) l end)
  (map AddNode ns) l = rev ns ++ l.
Proof. induction ns as [|n ns IH]; intros l; [reflexivity|]. cbn [map fold_left rev]. rewrite IH, <- app_assoc. reflexivity. Qed.
Lemma shard_new clients : (forall n, n ∈ clients -> ascii_only (label n)) ->
  exists r, shard_init label nlt hash clients = (r, Ok tt) /\ made_by 1024 (map AddNode clients) r /\
    r_ring r ≡ₚ flat_map (points label hash 1024) clients /\ NoDup (r_nodes r) /\ forall n, n ∈ r_nodes r <-> n ∈ clients.
Proof using ORD EqDecision0.
  intros Ha. assert (Hp : present (map AddNode clients) = rev clients) by (unfold present; rewrite present_adds; apply app_nil_r).
  destruct (complete 1024 (map AddNode clients)) as (r & Hm & _ & Hr & Hnd & Hn).
  { intros n Hn. apply elem_of_list_fmap in Hn as (x & E & Hx). injection E as ->. apply Ha, Hx. }
  exists r. split; [unfold shard_init; rewrite constructor; exact Hm|]. split; [exact Hm|].
  split; [rewrite Hr; unfold all_points; rewrite Hp; apply Permutation_flat_map; symmetry; apply Permutation_rev|].
  split; [exact Hnd|]. intros n. rewrite Hn, Hp, !elem_of_list_In, <- in_rev. reflexivity.
Qed.
End derived.
