(** Counts in every arithmetic, doubles included: what is reported for a counter, what is on
    its way and what is stored are the sums, in order of arrival, of consecutive blocks of
    the accepted amounts. *)
From Verif Require Import Base StrFacts Num Env Stats Glob Metrics Gen GenFacts Processor
  LineSpec LineFacts FloatFacts ProcFacts ProcSpec ReceiveFacts ReceiveFacts2 ReceiveFacts3 PlugFacts
  Sched FlushInv FlushOk SchedFacts.
From stdpp Require Import gmultiset.

Section blocks.
Context `{NN : Num} {NL : NumLaw NN} {NE : EqDecision num} {NC : Countable num}.
(** the values of the datapoints sent under stats_counts.KEY *)
Definition values_in (key : str) (l : list dp) : list num :=
  map (fun d => as_num (dp_value d)) (List.filter (fun d => str_eqb (dp_name d) (B "stats_counts." ++ key)) l).
(** zero plus the amounts, one after the other *)
Definition running_sum (l : list num) : num := fold_left nadd l n0.
Definition nonzero (l : list num) : list num := filter (fun x => x <> n0) l.

Context (E : env) (plugins : list factory) (key : str).
Notation bag := (gmultiset num).
Definition atom (x : num) : bag := if decide (x = n0) then ∅ else {[+ x +]}.
Definition bag_pot (m : gmap str num) : bag := atom (default n0 (m !! key)).
Definition bag_val (d : dp) : bag :=
  if str_eqb (dp_name d) (B "stats_counts." ++ key) then atom (as_num (dp_value d)) else ∅.
Notation op := (@disj_union (gmultiset num) _).
Definition bag_of (l : list num) : bag := list_to_set_disj (nonzero l).

Lemma op_comm : forall a b : bag, a ⊎ b = b ⊎ a. Proof. intros. apply gmultiset_disj_union_comm. Qed.
Lemma op_assoc : forall a b c : bag, a ⊎ (b ⊎ c) = (a ⊎ b) ⊎ c. Proof. intros. apply gmultiset_disj_union_assoc. Qed.
Lemma op_e0 : forall a : bag, ∅ ⊎ a = a. Proof. intros. apply gmultiset_disj_union_left_id. Qed.

Lemma bag_stats x v ts : bag_val (DP (B "stats." ++ x) v ts) = ∅.
Proof. unfold bag_val. cbn [dp_name]. destruct (str_eqb _ _) eqn:Eq; [|reflexivity]. apply str_eqb_eq in Eq. discriminate. Qed.
Lemma bag_statsd x v ts : bag_val (DP (B "statsd." ++ x) v ts) = ∅.
Proof. unfold bag_val. cbn [dp_name]. destruct (str_eqb _ _) eqn:Eq; [|reflexivity]. apply str_eqb_eq in Eq. discriminate. Qed.
Lemma bag_count (m : gmap str num) k n ts : m !! k = Some n ->
  bag_pot m = bag_pot (<[k := n0]> m) ⊎ bag_val (DP (count_prefix ++ k) (VF n) ts).
Proof.
  intros H. unfold bag_pot, bag_val. cbn [dp_name dp_value as_num].
  destruct (decide (k = key)) as [->|Hne].
  - rewrite lookup_insert, H. cbn. change count_prefix with (B "stats_counts.").
    rewrite str_eqb_refl. unfold atom at 2. destruct (decide (n0 = n0)); [|congruence]. rewrite op_e0. reflexivity.
  - rewrite lookup_insert_ne by auto. destruct (str_eqb _ _) eqn:Eq.
    + apply str_eqb_eq in Eq. apply app_inv_head in Eq. contradiction.
    + rewrite op_comm, op_e0. reflexivity.
Qed.

Lemma bag_of_app l k : bag_of (l ++ k) = bag_of l ⊎ bag_of k.
Proof. unfold bag_of, nonzero. rewrite stdpp.list.filter_app, list_to_set_disj_app. reflexivity. Qed.
Lemma bag_of_one x : bag_of [x] = atom x.
Proof.
  unfold bag_of, nonzero, atom. rewrite stdpp.list.filter_cons. destruct (decide (x <> n0)) as [H|H].
  - rewrite decide_False by exact H. rewrite stdpp.list.filter_nil, list_to_set_disj_cons, list_to_set_disj_nil, op_comm. apply op_e0.
  - assert (x = n0) as -> by (destruct (decide (x = n0)); tauto). rewrite decide_True by reflexivity. reflexivity.
Qed.
Lemma total_bag l : GenFacts.total op ∅ bag_val l = bag_of (values_in key l).
Proof.
  induction l as [|d l IH]; [reflexivity|]. cbn [GenFacts.total fold_right].
  change (fold_right _ ∅ l) with (GenFacts.total op ∅ bag_val l). rewrite IH. unfold bag_val, values_in. cbn [List.filter].
  destruct (str_eqb (dp_name d) (B "stats_counts." ++ key)).
  - cbn [map]. rewrite <- bag_of_one, <- bag_of_app. reflexivity.
  - apply op_e0.
Qed.
Lemma values_app l k : values_in key (l ++ k) = values_in key l ++ values_in key k.
Proof. unfold values_in. rewrite List.filter_app, map_app. reflexivity. Qed.
Lemma owed_bag g : owed op ∅ bag_val g = bag_of (values_in key (pending g)).
Proof.
  induction g as [|e|f IH|ms k IH] using gen_ind'; try reflexivity.
  cbn [owed pending]. rewrite values_app, bag_of_app, <- IH, total_bag. reflexivity.
Qed.
Lemma sum_bag gs : sumA op ∅ (owed op ∅ bag_val) gs = bag_of (values_in key (flat_map pending gs)).
Proof.
  induction gs as [|g gs IH]; [reflexivity|].
  cbn [sumA fold_right flat_map]. change (fold_right _ ∅ gs) with (sumA op ∅ (owed op ∅ bag_val) gs).
  rewrite IH, values_app, bag_of_app. f_equal. apply owed_bag.
Qed.

(** everything there is of the counter *)
Definition present (y : sys) : list num :=
  values_in key (y_out y) ++ values_in key (flat_map pending (y_live y ++ y_gone y)) ++
  [default n0 (p_counter (y_st y) !! key)].
Notation bal := (balance op ∅ bag_pot bag_val).
Lemma balance_bag y : bal y = bag_of (present y).
Proof.
  unfold balance, present. rewrite !sum_bag, total_bag, flat_map_app, values_app, !bag_of_app, bag_of_one.
  unfold bag_pot. generalize (bag_of (values_in key (y_out y))), (bag_of (values_in key (flat_map pending (y_live y)))),
    (bag_of (values_in key (flat_map pending (y_gone y)))), (atom (default n0 (p_counter (y_st y) !! key))).
  intros o l g a. rewrite (op_comm o), (op_comm (l ⊎ g)), <- !op_assoc. reflexivity.
Qed.

Lemma counter_kept y e : sane e -> (forall m, e <> Recv m) ->
  sys_ok op ∅ bag_pot bag_val y ->
  let c := default n0 (p_counter (y_st y) !! key) in
  let c' := default n0 (p_counter (y_st (sys_step E plugins y e)) !! key) in c' = c \/ c' = n0.
Proof.
  intros Hs Hr Hy c c'.
  destruct (sys_quiet_takes E plugins op ∅ op_comm op_assoc op_e0 bag_pot bag_val y e Hs Hr Hy) as [z Hz].
  unfold bag_pot in Hz. fold c c' in Hz. unfold atom in Hz.
  destruct (decide (c' = n0)) as [|Hc']; [auto|]. left. 
  assert (Hin : c' ∈ ({[+ c' +]} ⊎ z)) by (apply gmultiset_elem_of_disj_union; left; apply gmultiset_elem_of_singleton; reflexivity).
  rewrite <- Hz in Hin. destruct (decide (c = n0)).
  - apply gmultiset_not_elem_of_empty in Hin. destruct Hin.
  - apply gmultiset_elem_of_singleton in Hin. exact Hin.
Qed.

Lemma picks_snoc {A} (P : str -> A -> Prop) ms l m : picks P ms l ->
  (forall a, P m a -> picks P (ms ++ [m]) (l ++ [a])) /\ ((forall a, ~ P m a) -> picks P (ms ++ [m]) l).
Proof.
  induction 1 as [|m0 a0 ms l H0 _ [I1 I2]|m0 ms l H0 _ [I1 I2]]; cbn [app]; split; intros.
  - constructor; [assumption|constructor].
  - constructor; [assumption|constructor].
  - constructor; auto.
  - constructor; auto.
  - constructor; auto.
  - constructor; auto.
Qed.

Lemma bag_elements (l : list num) : elements (list_to_set_disj (C := bag) l) ≡ₚ l.
Proof.
  induction l as [|x l IH].
  - rewrite list_to_set_disj_nil, gmultiset_elements_empty. reflexivity.
  - rewrite list_to_set_disj_cons, gmultiset_elements_disj_union, gmultiset_elements_singleton, IH. reflexivity.
Qed.
Theorem counts_in_blocks es : Forall sane es ->
  let y := sys_run E plugins es sys_init in
  exists accepted blocks, picks (counter_amount key) (lines es) accepted /\ concat blocks = accepted /\
    nonzero (map running_sum blocks) ≡ₚ nonzero (present y).
Proof.
  intros Hs y.
  enough (Hx : sys_ok op ∅ bag_pot bag_val y /\ exists accepted blocks,
     picks (counter_amount key) (lines es) accepted /\ concat blocks = accepted /\
     bag_of (map running_sum blocks) = bag_of (present y) /\
     (let c := default n0 (p_counter (y_st y) !! key) in c <> n0 -> exists bs b, blocks = bs ++ [b] /\ running_sum b = c)).
  { destruct Hx as (_ & accepted & blocks & H1 & H2 & H3 & _). exists accepted, blocks. repeat split; [exact H1|exact H2|].
    rewrite <- (bag_elements (nonzero (map running_sum blocks))), <- (bag_elements (nonzero (present y))).
    unfold bag_of in H3. rewrite H3. reflexivity. }
  subst y. induction es as [|e es IH] using rev_ind.
  - split; [split; [apply inv_init|split; constructor]|]. exists [], []. split; [constructor|]. split; [reflexivity|]. split.
    + unfold present, sys_run. cbn [fold_left sys_init y_out y_live y_gone y_st app flat_map mp_init empty_state p_counter].
      rewrite lookup_empty. change (values_in key []) with (@nil num). cbn [app default from_option]. rewrite bag_of_one.
      unfold atom. rewrite decide_True by reflexivity. reflexivity.
    + unfold sys_run. cbn [fold_left sys_init y_st mp_init empty_state p_counter]. rewrite lookup_empty. cbn. intros Hc. destruct (Hc eq_refl).
  - apply Forall_app in Hs as [Hs He]. inversion He as [|? ? He1 _]; subst. destruct (IH Hs) as (Hok & accepted & blocks & H1 & H2 & H3 & H4). clear IH.
    unfold sys_run in *. rewrite fold_left_app. cbn [fold_left]. set (y := fold_left (sys_step E plugins) es sys_init) in *.
    assert (Hl : lines (es ++ [e]) = lines es ++ match e with Recv m => [m] | _ => [] end).
    { unfold lines. rewrite flat_map_app. cbn [flat_map]. rewrite app_nil_r. reflexivity. }
    rewrite Hl. clear Hl.
    assert (Hd : (exists m, e = Recv m) \/ forall m, e <> Recv m) by (destruct e; [left; eauto|right; discriminate..]).
    destruct Hd as [[m ->]|Hr].
    + destruct Hok as (O1 & O2 & O3). cbn [sys_step]. split; [split; [apply inv_receive; exact O1|split; assumption]|].
      destruct (picks_snoc (counter_amount key) (lines es) accepted m H1) as [P1 P2].
      set (c := default n0 (p_counter (y_st y) !! key)) in *. cbn zeta in H4.
      assert (Hpres : present y = (values_in key (y_out y) ++ values_in key (flat_map pending (y_live y ++ y_gone y))) ++ [c])
        by (unfold present; rewrite <- app_assoc; reflexivity).
      assert (Hpres' : forall s', present (Sys s' (y_live y) (y_gone y) (y_out y) (y_exn y)) =
         (values_in key (y_out y) ++ values_in key (flat_map pending (y_live y ++ y_gone y))) ++ [default n0 (p_counter s' !! key)])
        by (intros; unfold present; cbn [y_st y_live y_gone y_out]; rewrite <- app_assoc; reflexivity).
      rewrite Hpres' . rewrite Hpres in H3. rewrite bag_of_app, bag_of_one in *. cbn [y_st].
      destruct (counter_one E plugins m key (y_st y)) as [(a & Ha & Hc)|[(_ & Hn & Hc)|(_ & Hn & Hc)]].
      * rewrite Hc. cbn [default from_option]. fold c. change (from_option id n0 (p_counter (y_st y) !! key)) with c.
        exists (accepted ++ [a]).
        destruct (decide (c = n0)) as [Ec|Ec].
        -- exists (blocks ++ [[a]]). split; [auto|]. split; [rewrite concat_app, H2; reflexivity|].
           assert (Hsum : running_sum [a] = nadd c a) by (unfold running_sum; cbn; rewrite Ec; reflexivity).
           split.
           ++ rewrite map_app, bag_of_app. cbn [map]. rewrite bag_of_one, H3, Hsum. f_equal.
              unfold atom. rewrite (decide_True (P := c = n0)) by exact Ec. rewrite op_comm. apply op_e0.
           ++ intros _. exists blocks, [a]. auto.
        -- destruct (H4 Ec) as (bs & b & -> & Hb). exists (bs ++ [b ++ [a]]). split; [auto|].
           assert (Hsum : running_sum (b ++ [a]) = nadd c a) by (unfold running_sum in *; rewrite fold_left_app, Hb; reflexivity).
           split.
           { rewrite <- H2, !concat_app. cbn [concat]. rewrite !app_nil_r, app_assoc. reflexivity. }
           split.
           ++ rewrite map_app, bag_of_app in *. cbn [map] in *. rewrite bag_of_one in *. rewrite Hb in H3. rewrite Hsum.
              apply gmultiset_disj_union_inj_2 in H3. rewrite H3. reflexivity.
           ++ intros _. exists bs, (b ++ [a]). auto.
      * exists accepted, blocks. rewrite Hc. auto.
      * exists accepted, blocks. rewrite Hc. auto.
    + assert (Hm : match e with Recv m => [m] | _ => [] end = @nil str) by (destruct e as [m| | |]; [destruct (Hr m eq_refl)|reflexivity..]).
      rewrite Hm, app_nil_r.
      destruct (sys_quiet_ok E plugins op ∅ op_comm op_assoc op_e0 bag_pot bag_val bag_stats bag_statsd bag_count y e He1 Hr Hok) as [Q1 Q2].
      split; [exact Q1|]. exists accepted, blocks. split; [exact H1|]. split; [exact H2|]. split.
      * rewrite H3, <- !balance_bag, Q2. rewrite op_comm, op_e0. reflexivity.
      * pose proof (counter_kept y e He1 Hr Hok) as Hk. cbn zeta in *. intros Hc. destruct Hk as [Hk|Hk]; [|contradiction].
        rewrite Hk in *. auto.
Qed.
End blocks.
