(** Properties of the hash ring and the sharding client (C49-C53).  For every
    type of nodes, every order of them and every hash function.  [points],
    [present], [owner], [met_before], [firsts] are specifications from
    HashFacts.v; [made_by], [all_points], [clockwise] from RingDerived.v. *)
From Verif Require Import Base StrFacts Hashing HashFacts RingDerived.

(** ** A ring for the examples: nodes are numbers, printed in decimal; the hash
    adds the bytes in base 131 modulo a small prime *)
Definition demo_label (n : nat) : str := show_N (N.of_nat n).
Definition demo_hash (s : str) : Z := fold_left (fun h c => ((h + code c) * 40503) mod 65521) s 7.
Lemma demo_order : node_order Nat.ltb.
Proof.
  split; [intros; apply Nat.ltb_irrefl|]. split.
  - intros a b c. rewrite !Nat.ltb_lt. lia.
  - intros a b H. rewrite !Nat.ltb_lt. lia.
Qed.
Definition demo_ops : list (rop (node := nat)) :=
  [AddNode 3%nat; AddNode 5%nat; AddNode 3%nat; AddNode 8%nat; RemoveNode 5%nat; AddNode 9%nat].
Lemma demo_labels ops : labels_ok demo_label ops.
Proof. intros n _. apply show_N_ascii. Qed.
Definition demo_ring (count : nat) (ops : list (rop (node := nat))) : ring nat :=
  fst (perform demo_label Nat.ltb demo_hash ops (Ring [] [] count)).
Lemma demo_made count ops : made_by demo_label Nat.ltb demo_hash count ops (demo_ring count ops).
Proof.
  destruct (complete demo_label Nat.ltb demo_hash demo_order count ops (demo_labels ops)) as (r & H & _).
  unfold demo_ring, made_by in *. rewrite H. reflexivity.
Qed.

(** C49 *)
Theorem C49_ring_complete :
  forall (node : Type) (ED : EqDecision node) (label : node -> str) nlt hash, node_order nlt ->
  forall count (ops : list (rop (node := node))), labels_ok label ops ->
  exists r, made_by label nlt hash count ops r /\
    StronglySorted (before nlt) (r_ring r) /\ r_ring r ≡ₚ all_points label hash count ops /\
    NoDup (r_nodes r) /\ (forall n, n ∈ r_nodes r <-> n ∈ present ops).
Proof. exact @complete. Qed.
Print Assumptions C49_ring_complete.
Theorem C49_constructor :
  forall (node : Type) (ED : EqDecision node) (label : node -> str) nlt hash ns count,
  ring_init label nlt hash ns count = perform label nlt hash (map AddNode ns) (Ring [] [] count).
Proof. exact @constructor. Qed.
Print Assumptions C49_constructor.
(** a node whose text is not ASCII cannot be added, but is counted afterwards *)
Theorem C49_failed_add :
  forall (node : Type) (ED : EqDecision node) (label : node -> str) nlt hash n (r : ring node),
  ~ ascii_only (label n) -> (0 < r_count r)%nat ->
  exists r', add_node label nlt hash n r = (r', Exn UnicodeDecodeError) /\ r_ring r' = r_ring r /\ n ∈ r_nodes r'.
Proof. exact @failed_add. Qed.
Print Assumptions C49_failed_add.
Example C49_case : present demo_ops = [9; 8; 3; 3]%nat /\ length (r_ring (demo_ring 2 demo_ops)) = 8%nat /\
  map snd (r_ring (demo_ring 2 demo_ops)) = [8; 9; 3; 3; 8; 3; 3; 9]%nat.
Proof. vm_compute. auto. Qed.

(** C50 *)
Theorem C50_clockwise_successor :
  forall (node : Type) (ED : EqDecision node) (label : node -> str) nlt hash, node_order nlt ->
  forall count (ops : list (rop (node := node))) r key, labels_ok label ops ->
  made_by label nlt hash count ops r -> (0 < count)%nat -> present ops <> [] -> ascii_only key ->
  exists n, get_node hash r key = Ok n /\ n ∈ present ops /\
    owner nlt (all_points label hash count ops) (hash key) n.
Proof. exact @owner_is. Qed.
Print Assumptions C50_clockwise_successor.
Theorem C50_history_free :
  forall (node : Type) (ED : EqDecision node) (label : node -> str) nlt hash, node_order nlt ->
  forall count (ops ops' : list (rop (node := node))) r r' key, labels_ok label ops -> labels_ok label ops' ->
  made_by label nlt hash count ops r -> made_by label nlt hash count ops' r' -> (0 < count)%nat ->
  (forall n, n ∈ present ops <-> n ∈ present ops') -> get_node hash r key = get_node hash r' key.
Proof. exact @order_free. Qed.
Print Assumptions C50_history_free.
Example C50_case :
  get_node demo_hash (demo_ring 2 demo_ops) (B "x.z") = Ok 9%nat /\
  get_node demo_hash (demo_ring 2 demo_ops) (B "b") = Ok 8%nat (* wraps around *) /\
  get_node demo_hash (demo_ring 2 [AddNode 8; AddNode 9; AddNode 3]%nat) (B "x.z") = Ok 9%nat.
Proof. vm_compute. auto. Qed.

(** C51 *)
Theorem C51_adding :
  forall (node : Type) (ED : EqDecision node) (label : node -> str) nlt hash, node_order nlt ->
  forall count (ops : list (rop (node := node))) r m r' key n n', labels_ok label (ops ++ [AddNode m]) ->
  made_by label nlt hash count ops r -> made_by label nlt hash count (ops ++ [AddNode m]) r' ->
  get_node hash r key = Ok n -> get_node hash r' key = Ok n' -> n' = n \/ n' = m.
Proof. exact @add_moves. Qed.
Print Assumptions C51_adding.
Theorem C51_removing :
  forall (node : Type) (ED : EqDecision node) (label : node -> str) nlt hash, node_order nlt ->
  forall count (ops : list (rop (node := node))) r m r' key n, labels_ok label ops ->
  made_by label nlt hash count ops r -> made_by label nlt hash count (ops ++ [RemoveNode m]) r' ->
  get_node hash r key = Ok n -> n <> m -> get_node hash r' key = Ok n.
Proof. exact @remove_keeps. Qed.
Print Assumptions C51_removing.
Example C51_case :
  get_node demo_hash (demo_ring 2 (demo_ops ++ [AddNode 4%nat])) (B "x.z") = Ok 4%nat /\
  get_node demo_hash (demo_ring 2 (demo_ops ++ [AddNode 4%nat])) (B "b") = Ok 8%nat /\
  get_node demo_hash (demo_ring 2 (demo_ops ++ [RemoveNode 9%nat])) (B "x.z") = Ok 3%nat /\
  get_node demo_hash (demo_ring 2 (demo_ops ++ [RemoveNode 9%nat])) (B "b") = Ok 8%nat.
Proof. vm_compute. auto. Qed.

(** C52 *)
Theorem C52_preference :
  forall (node : Type) (ED : EqDecision node) (label : node -> str) nlt hash, node_order nlt ->
  forall count (ops : list (rop (node := node))) r key, labels_ok label ops ->
  made_by label nlt hash count ops r -> (0 < count)%nat -> present ops <> [] -> ascii_only key ->
  exists l, clockwise nlt (all_points label hash count ops) (hash key) l /\
    (forall l', clockwise nlt (all_points label hash count ops) (hash key) l' -> l' = l) /\
    get_nodes hash r key = Ok (firsts [] (map snd (removelast l))).
Proof. exact @preference. Qed.
Print Assumptions C52_preference.
Theorem C52_consequences :
  forall (node : Type) (ED : EqDecision node) (label : node -> str) nlt hash, node_order nlt ->
  forall count (ops : list (rop (node := node))) r key ns, labels_ok label ops ->
  made_by label nlt hash count ops r -> (0 < count)%nat -> ascii_only key -> present ops <> [] ->
  get_nodes hash r key = Ok ns ->
  NoDup ns /\ (forall n, n ∈ ns -> n ∈ present ops) /\
  ((1 < length (present ops) * count)%nat -> exists n, head ns = Some n /\ get_node hash r key = Ok n) /\
  ((length (present ops) * count)%nat = 1%nat -> ns = []) /\
  ((1 < count)%nat -> forall n, n ∈ present ops -> n ∈ ns).
Proof. exact @preference_facts. Qed.
Print Assumptions C52_consequences.
Theorem C52_empty :
  forall (node : Type) (ED : EqDecision node) (hash : str -> Z) (r : ring node) key,
  r_ring r = [] -> ascii_only key ->
  get_nodes hash r key = Exn ZeroDivisionError /\ get_node hash r key = Exn AssertionError.
Proof. exact (fun node ED hash r key => preference_empty hash r key). Qed.
Print Assumptions C52_empty.
(** "get_nodes returns every node" is false when a node has a single point *)
Theorem C52_all_nodes_refuted :
  exists r key n, made_by demo_label Nat.ltb demo_hash 1 [AddNode 3; AddNode 5]%nat r /\ ascii_only key /\
    n ∈ present [AddNode 3; AddNode 5]%nat /\ exists ns, get_nodes demo_hash r key = Ok ns /\ n ∉ ns.
Proof.
  exists (demo_ring 1 [AddNode 3; AddNode 5]%nat), (B "k"), 5%nat. split; [apply demo_made|].
  split; [apply ascii_only_b; reflexivity|]. split; [apply elem_of_list_In; vm_compute; auto|].
  exists [3%nat]. split; [vm_compute; reflexivity|].
  intros H. apply elem_of_list_singleton in H. discriminate.
Qed.
Print Assumptions C52_all_nodes_refuted.
Example C52_case : get_nodes demo_hash (demo_ring 2 demo_ops) (B "x.z") = Ok [9; 3; 8]%nat.
Proof. vm_compute. reflexivity. Qed.

(** C53 *)
Theorem C53_one_backend :
  forall (node : Type) (ED : EqDecision node) (label : node -> str) nlt hash, node_order nlt ->
  forall count (ops : list (rop (node := node))) r name rest, labels_ok label ops ->
  made_by label nlt hash count ops r -> (0 < count)%nat -> present ops <> [] -> ascii_only name -> c_colon ∉ name ->
  exists n, shard_write hash r (name ++ B ":" ++ rest) = Ok [(n, name ++ B ":" ++ rest)] /\
    n ∈ present ops /\ owner nlt (all_points label hash count ops) (hash name) n.
Proof. exact @shard_ok. Qed.
Print Assumptions C53_one_backend.
(** the sharding client: 1024 points for each backend *)
Theorem C53_init :
  forall (node : Type) (ED : EqDecision node) (label : node -> str) nlt hash, node_order nlt ->
  forall clients : list node, (forall n, n ∈ clients -> ascii_only (label n)) ->
  exists r, shard_init label nlt hash clients = (r, Ok tt) /\ made_by label nlt hash 1024 (map AddNode clients) r /\
    r_ring r ≡ₚ flat_map (points label hash 1024) clients /\ NoDup (r_nodes r) /\ forall n, n ∈ r_nodes r <-> n ∈ clients.
Proof. exact @shard_new. Qed.
Print Assumptions C53_init.
(** the backend depends on the name only *)
Theorem C53_stable :
  forall (node : Type) (ED : EqDecision node) hash (r : ring node) name rest rest' n data n' data', c_colon ∉ name ->
  shard_write hash r (name ++ B ":" ++ rest) = Ok [(n, data)] ->
  shard_write hash r (name ++ B ":" ++ rest') = Ok [(n', data')] -> n = n' /\ data' = name ++ B ":" ++ rest'.
Proof. exact (fun node ED hash => shard_stable hash). Qed.
Print Assumptions C53_stable.
Theorem C53_unnamed :
  forall (node : Type) (ED : EqDecision node) hash (r : ring node) data, c_colon ∉ data ->
  shard_write hash r data = Exn ValueError.
Proof. exact (fun node ED hash r data => shard_no_colon hash r data). Qed.
Print Assumptions C53_unnamed.
(** connecting and disconnecting reach every backend once *)
Theorem C53_connect :
  forall (node : Type) (ED : EqDecision node) (label : node -> str) nlt hash, node_order nlt ->
  forall count (ops : list (rop (node := node))) r order, labels_ok label ops ->
  made_by label nlt hash count ops r -> (forall l, order l ≡ₚ l) ->
  NoDup (shard_each order r) /\ forall n, n ∈ shard_each order r <-> n ∈ present ops.
Proof. exact @shard_each_once. Qed.
Print Assumptions C53_connect.
Example C53_init_case : forall n, n ∈ [3%nat; 8%nat] -> ascii_only (demo_label n).
Proof. intros n _. apply show_N_ascii. Qed.
Example C53_case : shard_write demo_hash (demo_ring 2 demo_ops) (B "x.z:1|c") = Ok [(9%nat, B "x.z:1|c")] /\
  shard_write demo_hash (demo_ring 2 demo_ops) (B "nonsense") = Exn ValueError.
Proof. vm_compute. auto. Qed.
