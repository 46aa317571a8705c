(** Facts about Cluster.v. *)
From Verif Require Import Base StrFacts Num NumFacts Env Stats Glob Metrics Gen GenFacts Processor
  LineSpec LineFacts FloatFacts ProcFacts ProcSpec ReceiveFacts ReceiveFacts2 ReceiveFacts3 PlugFacts
  Sched FlushInv FlushOk SchedFacts
  Client Router RouterSpec RouterFacts RouterProps Server ServerSpec FrameFacts ServerFacts Daemon DaemonFacts
  Hashing HashFacts RingDerived Cluster.
Open Scope Z_scope.

(** ** A counter no line mentions is never reported, for every arithmetic *)
Definition silent `{NN : Num} (key : str) (l : list dp) : Prop :=
  Forall (fun d => dp_name d <> B "stats_counts." ++ key) l.
Section untouched.
Context `{NN : Num} {NL : NumLaw NN} (E : env) (plugins : list factory) (key : str).
Definition hit (d : dp) : bool := str_eqb (dp_name d) (B "stats_counts." ++ key).
Definition known (m : gmap str num) : bool := match m !! key with Some _ => true | None => false end.
Definition mentions (m : str) : bool := match counter_view m key with Some _ => true | None => false end.
Lemma mentions_touch m : mentions m = false <-> ~ counter_touch m key.
Proof using Type.
  unfold mentions. rewrite <- counter_view_touch. destruct (counter_view m key) as [[v o]|].
  - split; [discriminate|]. intros H. exfalso. apply H. eauto.
  - split; [|reflexivity]. intros _ (v & r & H). discriminate.
Qed.
Lemma silent_hit l : existsb hit l = false <-> silent key l.
Proof using Type.
  unfold silent. induction l as [|d l IH]; cbn [existsb]; [split; [constructor|reflexivity]|].
  rewrite orb_false_iff, IH. unfold hit. split.
  - intros [H1 H2]. constructor; [|exact H2]. intros He. rewrite He, str_eqb_refl in H1. discriminate.
  - intros H. inversion_clear H as [|? ? H1 H2]. split; [|exact H2]. destruct (str_eqb _ _) eqn:Eq; [|reflexivity].
    apply str_eqb_eq in Eq. contradiction.
Qed.
Lemma hit_stats x v ts : hit (DP (B "stats." ++ x) v ts) = false.
Proof using Type. unfold hit. cbn [dp_name]. destruct (str_eqb _ _) eqn:Eq; [|reflexivity]. apply str_eqb_eq in Eq. discriminate. Qed.
Lemma hit_statsd x v ts : hit (DP (B "statsd." ++ x) v ts) = false.
Proof using Type. unfold hit. cbn [dp_name]. destruct (str_eqb _ _) eqn:Eq; [|reflexivity]. apply str_eqb_eq in Eq. discriminate. Qed.
Lemma known_zero (m : gmap str num) k n ts : m !! k = Some n ->
  known m = orb (known (<[k := n0]> m)) (hit (DP (count_prefix ++ k) (VF n) ts)).
Proof using Type.
  intros H. unfold known, hit. cbn [dp_name]. destruct (decide (k = key)) as [->|Hne].
  - rewrite lookup_insert, H. reflexivity.
  - rewrite lookup_insert_ne by auto. destruct (str_eqb _ _) eqn:Eq.
    + apply str_eqb_eq in Eq. apply app_inv_head in Eq. contradiction.
    + rewrite orb_false_r. reflexivity.
Qed.
Lemma known_receive m (s : mst) : known (p_counter (receive E plugins m s)) = orb (known (p_counter s)) (mentions m).
Proof using NL.
  unfold known. destruct (counter_one E plugins m key s) as [(a & Ha & H)|[(Ht & Ha & H)|(Ht & Ha & H)]]; rewrite H.
  - assert (Hm : counter_touch m key).
    { destruct Ha as (v & r & Hs & _). destruct Hs; [eapply ct_plain|eapply ct_rate]; eassumption. }
    destruct (mentions m) eqn:Em; [rewrite orb_true_r; reflexivity|]. apply mentions_touch in Em. contradiction.
  - destruct (mentions m) eqn:Em; [rewrite orb_true_r; reflexivity|]. apply mentions_touch in Em. contradiction.
  - apply mentions_touch in Ht. rewrite Ht, orb_false_r. reflexivity.
Qed.
Lemma total_hit l : total orb false hit l = existsb hit l.
Proof using Type. induction l as [|d l IH]; [reflexivity|]. cbn [total fold_right existsb]. rewrite <- IH. reflexivity. Qed.
Lemma owed_hit g : owed orb false hit g = existsb hit (pending g).
Proof using Type.
  induction g as [|e|f IH|ms k IH] using gen_ind'; try reflexivity.
  cbn [owed pending]. rewrite existsb_app, <- IH, <- total_hit. reflexivity.
Qed.
Lemma sum_hit gs : sumA orb false (owed orb false hit) gs = existsb hit (flat_map pending gs).
Proof using Type.
  induction gs as [|g gs IH]; [reflexivity|]. cbn [sumA fold_right flat_map]. rewrite existsb_app, <- owed_hit, <- IH. reflexivity.
Qed.
Lemma sum_mentions ms : sumA orb false mentions ms = false <-> Forall (fun m => ~ counter_touch m key) ms.
Proof using Type.
  induction ms as [|m ms IH]; [split; [constructor|reflexivity]|]. cbn [sumA fold_right].
  change (fold_right _ false ms) with (sumA orb false mentions ms). rewrite orb_false_iff, IH, mentions_touch.
  split; [intros [H1 H2]; constructor; assumption|intros H; inversion_clear H; auto].
Qed.
Theorem untouched es : Forall sane es -> Forall (fun m => ~ counter_touch m key) (lines es) ->
  let y := sys_run E plugins es sys_init in
  silent key (y_out y) /\ silent key (flat_map pending (y_live y ++ y_gone y)) /\ p_counter (y_st y) !! key = None.
Proof using NL.
  intros Hs Hl y.
  destruct (sys_run_ok E plugins orb false orb_comm orb_assoc (fun a => eq_refl) known hit mentions
    hit_stats hit_statsd known_zero known_receive es sys_init Hs) as [_ H].
  { split; [apply inv_init|split; constructor]. }
  fold y in H. unfold balance in H. rewrite (proj2 (sum_mentions _) Hl), !sum_hit, !total_hit in H.
  cbn [y_live y_gone y_out y_st sys_init flat_map existsb] in H. unfold known at 2 in H. cbn [mp_init empty_state p_counter] in H.
  rewrite lookup_empty in H. cbn [orb] in H. rewrite !orb_false_iff in H. destruct H as (H1 & H2 & H3 & H4).
  rewrite <- !silent_hit, flat_map_app, existsb_app, H2, H3. repeat split; [exact H4|].
  unfold known in H1. destruct (p_counter (y_st y) !! key); [discriminate|reflexivity].
Qed.
End untouched.

(** the same for a daemon without routing rules *)
Section quiet_daemon.
Context `{NN : Num} {NL : NumLaw NN} (E : env) (plugins : list factory) (G : engine).
Notation C := (mp_cls E plugins).
Context (interval percent : Z) (cfg : mon) (max : nat) (refuses : nat -> dp -> option exn) (Hi : 1000 <= interval).
Notation run := (drun (S := mst) G (process_message E C) (flush E C interval percent) [] cfg max false refuses).
Lemma no_rules_built : build_rules G true [] [] = ([], Ok []). Proof. reflexivity. Qed.
Lemma no_rules_text : rules_of [] []. Proof. apply rules_by. reflexivity. Qed.
Lemma skipped_touch m ts key : delivers G [] m ts -> Forall (fun t => counter_touch t key -> counter_touch m key) ts.
Proof using Type.
  intros [Hn|t k fs Ht Hn|t k fs sent Ht Hro|t k fs t' k' fs' sent Ht Hro Ht']; try constructor; [|constructor].
  destruct (routes_fun G _ _ _ _ _ _ _ Hro (routes_skip G _ [] (Forall_nil_2 _) 0)) as [Ho _]. injection Ho as -> -> ->.
  assert (Hsame : forall t1 k1 fs1, typed_line (text_of (t, k, fs)) t1 k1 fs1 -> typed_line m t1 k1 fs1).
  { intros t1 k1 fs1 H. destruct (typed_line_fun _ _ _ _ _ _ _ H Ht') as (-> & -> & ->). exact Ht. }
  intros [f0 v H Hv|f0 f2 run v H Hv Hf]; [eapply ct_plain|eapply ct_rate]; eauto.
Qed.
Lemma skipped_touches ms tss key : Forall2 (delivers G []) ms tss -> Forall (fun m => ~ counter_touch m key) ms ->
  Forall (fun m => ~ counter_touch m key) (concat tss).
Proof using Type.
  induction 1 as [|m ts ms tss Hd _ IH]; intros Hu; [constructor|].
  inversion_clear Hu as [|? ? Hm Hu']. cbn [concat]. apply Forall_app. split; [|auto].
  eapply Forall_impl; [eapply skipped_touch; exact Hd|]. intros t Ht Hc. apply Hm, Ht, Hc.
Qed.
Lemma daemon_quiet addrs es out key :
  arrivals max (map (fun a => (a, [])) addrs) (nets es) out ->
  Forall (fun m => ~ counter_touch m key) (metrics_in cfg out ++ own es) ->
  let d := run (d_new addrs [] mp_init) es in
  silent key (map (fun c => snd (fst c)) (d_calls d)) /\
  silent key (flat_map pending (map snd (d_live d) ++ d_gone d)) /\
  p_counter (d_proc d) !! key = None /\ Forall (fun m => ~ counter_touch m key) (v_pending (d_srv d)).
Proof using NL Hi.
  intros Ha Hu d.
  destruct (daemon_network G (process_message E C) (flush E C interval percent) [] cfg max refuses addrs [] mp_init es out Ha) as [_ Hp].
  cbv zeta in Hp. change (drun G _ _ [] cfg max false refuses _ es) with d in Hp.
  destruct (daemon_refines E plugins G interval percent cfg max false refuses [] [] [] [] no_rules_built no_rules_text addrs [] es eq_refl) as (y & tss & evs & Hs).
  { intros m Hin. apply skipped. intros t k fs Ht. constructor. }
  fold d in Hs. destruct Hs as [H1 H2 H3 H4 H5 H6 H7 H8 H9].
  rewrite <- Hp in Hu. apply Forall_app in Hu as [Hu Hw].
  destruct (untouched E plugins key evs (H7 Hi)) as (Q1 & Q2 & Q3).
  { rewrite H8. exact (skipped_touches _ _ key H9 Hu). }
  rewrite <- H6 in Q1, Q2, Q3. rewrite H4, H2, H3, H1. auto.
Qed.
End quiet_daemon.

(** ** What lines add up to *)
(** [amount key ms x]: the lines [ms] add [x] to the counter [key] *)
Definition amount `{NN : Num} (key : str) (ms : list str) (x : num) : Prop :=
  exists l, picks (contribution key) ms l /\ x = nsum l.
Section amounts.
Context `{NN : Num} {NL : NumLaw NN} {NX : NumExact NN} (key : str).
Lemma amount_exists ms : exists x, amount key ms x.
Proof using NL NX.
  assert (H : exists l, picks (contribution key) ms l).
  { induction ms as [|m ms [l IH]]; [exists []; constructor|].
    destruct (counter_view m key) as [[v o]|] eqn:Ev.
    - destruct (rate_of o) as [r|] eqn:Er.
      + destruct (neqb r n0) eqn:Ez.
        * destruct o as [g|]; [|cbn in Er; injection Er as <-; rewrite one_not_zero in Ez; discriminate].
          exists l. constructor; [|exact IH]. intros a (v' & r' & Hs & _). apply counter_view_sample in Hs as (o' & Ho & Hr & Hz).
          rewrite Ev in Ho. injection Ho as <- <-. rewrite Er in Hr. injection Hr as <-. rewrite Hz in Ez by discriminate. discriminate.
        * exists (ndiv v r :: l). constructor; [|exact IH]. exists v, r. split; [|reflexivity]. apply counter_view_sample. exists o. auto.
      + exists l. constructor; [|exact IH]. intros a (v' & r' & Hs & _). apply counter_view_sample in Hs as (o' & Ho & Hr & Hz).
        rewrite Ev in Ho. injection Ho as <- <-. rewrite Er in Hr. discriminate.
    - exists l. constructor; [|exact IH]. intros a (v' & r' & Hs & _). apply counter_view_sample in Hs as (o' & Ho & Hr & Hz). congruence. }
  destruct H as [l H]. exists (nsum l), l. auto.
Qed.
Lemma amount_fun ms x y : amount key ms x -> amount key ms y -> x = y.
Proof using NL NX.
  intros (l & Hl & ->) (k & Hk & ->). f_equal. eapply picks_fun; [apply contribution_fun|eassumption..].
Qed.
Lemma amount_perm ms ms' x : ms ≡ₚ ms' -> amount key ms x -> amount key ms' x.
Proof using NL NX.
  intros Hp (l & Hl & ->). destruct (amount_exists ms') as (y & k & Hk & ->). exists k. split; [exact Hk|].
  apply nsum_perm. eapply picks_perm; [apply contribution_fun|exact Hp|eassumption..].
Qed.
Lemma amount_app ms ms' x y : amount key ms x -> amount key ms' y -> amount key (ms ++ ms') (nadd x y).
Proof using NL NX.
  intros (l & Hl & ->) (k & Hk & ->). exists (l ++ k). split; [apply picks_join; assumption|]. symmetry. apply nsum_app.
Qed.
Lemma amount_drop (p : str -> bool) ms x : (forall m a, p m = false -> ~ contribution key m a) ->
  amount key ms x <-> amount key (List.filter p ms) x.
Proof using NL NX.
  intros Hn. assert (H : forall l, picks (contribution key) ms l -> picks (contribution key) (List.filter p ms) l).
  { induction 1 as [|m a ms l Ha _ IH|m ms l Ha _ IH]; cbn [List.filter]; [constructor|..].
    - destruct (p m) eqn:Ep; [constructor; assumption|]. exfalso. eapply Hn; eassumption.
    - destruct (p m) eqn:Ep; [constructor 3; assumption|exact IH]. }
  split; [intros (l & Hl & ->); exists l; auto|]. intros Hx. destruct (amount_exists ms) as (y & l & Hl & ->).
  assert (Hy : amount key (List.filter p ms) (nsum l)) by (exists l; auto). rewrite (amount_fun _ _ _ Hx Hy). exists l. auto.
Qed.
Lemma amount_none ms : Forall (fun m => forall a, ~ contribution key m a) ms -> amount key ms n0.
Proof using Type. intros H. exists []. split; [|reflexivity]. induction H; constructor; auto. Qed.
Lemma amount_flat {X} (f : X -> list str) (ns : list X) xs : Forall2 (fun n x => amount key (f n) x) ns xs ->
  amount key (flat_map f ns) (nsum xs).
Proof using NL NX.
  induction 1 as [|n x ns xs Hx _ IH]; [exists []; split; [constructor|reflexivity]|].
  cbn [flat_map]. rewrite nsum_cons. apply amount_app; assumption.
Qed.
End amounts.

(** ** The cluster *)
(** what is configured at one node: environment, plugins, flush interval and percentile,
    monitor message, MAX_LENGTH, and what carbon refuses there *)
Record site `{NN : Num} := Site {
  s_env : env; s_plugins : list factory; s_interval : Z; s_percent : Z; s_mon : mon; s_max : nat;
  s_refuses : nat -> dp -> option exn }.
(** the lines written by clients, and by the daemons themselves, in a history *)
Definition written {node} (h : list (cevent node)) : list str :=
  flat_map (fun e => match e with CWrite _ data => [data] | _ => [] end) h.
Definition owned {node} (h : list (cevent node)) : list (node * str) :=
  flat_map (fun e => match e with CLocal n (DInternal m) => [(n, m)] | _ => [] end) h.

Section run.
Context `{NN : Num} {node : Type} `{!EqDecision node} (hash : str -> Z) (G : engine) (sites : node -> site).
Definition site_step (s : site) : @daemon NN mst -> devent -> @daemon NN mst :=
  dstep (S := mst) G (process_message (s_env s) (mp_cls (s_env s) (s_plugins s)))
    (flush (s_env s) (mp_cls (s_env s) (s_plugins s)) (s_interval s) (s_percent s)) [] (s_mon s) (s_max s) false (s_refuses s).
Definition fresh : @daemon NN mst := d_new [] [] mp_init.
Definition run_cluster (h : list (cevent node)) : @cluster NN node mst :=
  crun hash (fun n => site_step (sites n)) (fun _ => fresh) (c_new (fun _ => fresh)) h.

(** a ring some client built by adding and removing backends, all of them among [nodes] *)
Definition usable (nodes : list node) (r : ring node) : Prop :=
  exists label nlt count (ops : list (rop (node := node))), node_order nlt /\ labels_ok label ops /\ made_by label nlt hash count ops r /\
    (0 < count)%nat /\ present ops <> [] /\ forall n, n ∈ present ops -> n ∈ nodes.
(** clients write ASCII; the daemons get lines only from the clients and from themselves *)
Definition fair (nodes : list node) (e : cevent node) : Prop :=
  match e with
  | CWrite r data => usable nodes r /\ ascii_only data
  | CCrash n => n ∈ nodes
  | CLocal n e => n ∈ nodes /\ match e with DNet (SRun _) | DInternal _ | DFlush | DStep _ => True | _ => False end
  | _ => True
  end.

Definition at_node (n : node) (l : list (node * str)) : list str :=
  map snd (List.filter (fun x => if decide (fst x = n) then true else false) l).
Definition has_colon (m : str) : bool := match split1 c_colon m with Some _ => true | None => false end.
Definition from_write (h : list (cevent node)) (x : node * str) : Prop :=
  exists r, In (CWrite r (snd x)) h /\ shard_write hash r (snd x) = Ok [x].

Lemma at_app n l k : at_node n (l ++ k) = at_node n l ++ at_node n k.
Proof using Type. unfold at_node. rewrite List.filter_app, map_app. reflexivity. Qed.
Lemma at_cons n x l : at_node n (x :: l) = (if decide (fst x = n) then [snd x] else []) ++ at_node n l.
Proof using Type. unfold at_node. cbn [List.filter]. destruct (decide (fst x = n)); reflexivity. Qed.
Lemma at_all l nodes : NoDup nodes -> Forall (fun x => fst x ∈ nodes) l ->
  flat_map (fun n => at_node n l) nodes ≡ₚ map snd l.
Proof using Type.
  intros Hn. induction l as [|x l IH]; intros Hl.
  - assert (Hz : forall ns : list node, flat_map (fun n => at_node n []) ns = []) by (intros ns; induction ns; auto). rewrite Hz. reflexivity.
  - inversion_clear Hl as [|? ? Hx Hl']. specialize (IH Hl'). cbn [map]. rewrite <- IH. clear IH Hl'.
    induction nodes as [|m nodes IHn]; [inversion Hx|]. inversion_clear Hn as [|? ? Hm Hn']. cbn [flat_map].
    rewrite at_cons. destruct (decide (fst x = m)) as [He|Hne].
    + cbn [app]. constructor. apply Permutation_app_head.
      assert (Hz : forall ns, fst x ∉ ns -> flat_map (fun n => at_node n (x :: l)) ns = flat_map (fun n => at_node n l) ns).
      { intros ns Hns. induction ns as [|k ns IHk]; [reflexivity|]. cbn [flat_map]. rewrite at_cons.
        destruct (decide (fst x = k)) as [Hk|_]; [exfalso; apply Hns; rewrite Hk; left|]. cbn [app]. f_equal. apply IHk. intros H. apply Hns. right. exact H. }
      rewrite Hz; [reflexivity|]. subst m. exact Hm.
    + cbn [app]. rewrite (IHn Hn'); [|inversion Hx; [contradiction|assumption]].
      rewrite <- Permutation_middle. reflexivity.
Qed.

Lemma arrivals_datagram max ws es out a d : arrivals max ws es out -> arrivals max ws (es ++ [SDatagram a d]) (out ++ [(a, d)]).
Proof using Type.
  induction 1; cbn [app]; [repeat constructor|constructor; assumption| |constructor; assumption].
  rewrite <- app_assoc. econstructor; eassumption.
Qed.
Lemma arrivals_run max ws es out i : arrivals max ws es out -> arrivals max ws (es ++ [SRun i]) out.
Proof using Type. induction 1; cbn [app]; [repeat constructor|constructor; assumption|econstructor; eassumption|constructor; assumption]. Qed.
Lemma nets_app es es' : nets (es ++ es') = nets es ++ nets es'. Proof. apply flat_map_app. Qed.
Lemma own_app es es' : own (es ++ es') = own es ++ own es'. Proof. apply flat_map_app. Qed.

(** the history of one daemon, from its start: what reached it, and its own lines *)
Definition history_of (n : node) (d : @daemon NN mst) (got mine : list str) : Prop :=
  exists es out, d = fold_left (site_step (sites n)) es fresh /\
    arrivals (s_max (sites n)) [] (nets es) out /\ map snd out = got /\ own es = mine.
(** what reached the daemons that have died *)
Definition buried (graves : list (node * (list str * list str))) : list (node * str) :=
  flat_map (fun g => map (pair (fst g)) (fst (snd g))) graves.
Definition buried_own (graves : list (node * (list str * list str))) : list (node * str) :=
  flat_map (fun g => map (pair (fst g)) (snd (snd g))) graves.
Record cluster_ok (h : list (cevent node)) (c : @cluster NN node mst) (arr ow : list (node * str))
  (graves : list (node * (list str * list str))) : Prop := {
  co_moved : c_sent c ++ c_extra c ≡ₚ (arr ++ buried graves) ++ c_transit c ++ c_lost c;
  co_own : owned h ≡ₚ ow ++ buried_own graves;
  co_nodes : forall n, history_of n (c_node c n) (at_node n arr) (at_node n ow);
  co_dead : Forall2 (fun d g => fst d = fst g /\ history_of (fst d) (snd d) (fst (snd g)) (snd (snd g))) (c_dead c) graves;
  co_from : Forall (from_write h) (c_sent c ++ c_extra c);
  co_sent : map snd (c_sent c) = List.filter has_colon (written h) }.

Definition elsewhere (n : node) (l : list (node * str)) : list (node * str) :=
  List.filter (fun x => if decide (fst x = n) then false else true) l.
Lemma split_node n l : l ≡ₚ elsewhere n l ++ map (pair n) (at_node n l).
Proof using Type.
  induction l as [|x l IH]; [reflexivity|]. rewrite at_cons. unfold elsewhere in *. cbn [List.filter].
  destruct (decide (fst x = n)) as [He|Hne]; cbn [app map].
  - rewrite <- Permutation_middle, <- IH. rewrite <- He. destruct x; reflexivity.
  - rewrite <- IH. reflexivity.
Qed.
Lemma at_elsewhere n m l : at_node m (elsewhere n l) = if decide (m = n) then [] else at_node m l.
Proof using Type.
  induction l as [|x l IH]; [destruct (decide (m = n)); reflexivity|]. unfold elsewhere in *. cbn [List.filter].
  destruct (decide (fst x = n)) as [He|Hne].
  - rewrite IH, at_cons. destruct (decide (m = n)) as [->|Hm]; [reflexivity|].
    destruct (decide (fst x = m)) as [Hx|_]; [exfalso; apply Hm; congruence|reflexivity].
  - rewrite !at_cons, IH. destruct (decide (m = n)) as [->|Hm]; [|reflexivity].
    destruct (decide (fst x = n)); [contradiction|reflexivity].
Qed.

Lemma from_more h e x : from_write h x -> from_write (h ++ [e]) x.
Proof using Type. intros (r & H1 & H2). exists r. split; [apply in_or_app; auto|exact H2]. Qed.
Lemma fair_colon nodes r data : usable nodes r -> ascii_only data -> has_colon data = true ->
  exists n, shard_write hash r data = Ok [(n, data)] /\ n ∈ nodes.
Proof using Type.
  intros (label & nlt & count & ops & Ho & Hl & Hm & Hc & Hp & Hi) Ha Hh. unfold has_colon in Hh.
  destruct (split1 c_colon data) as [[a b]|] eqn:Es; [|discriminate].
  assert (Hd : data = a ++ B ":" ++ b /\ c_colon ∉ a).
  { clear - Es. revert a b Es. induction data as [|c data IH]; intros a b Es; [discriminate|]. cbn [split1] in Es. unfold eqc in Es.
    destruct (Ascii.eqb_spec c_colon c) as [<-|Hne].
    - injection Es as <- <-. split; [reflexivity|]. intros H. inversion H.
    - destruct (split1 c_colon data) as [[a' b']|]; [|discriminate]. injection Es as <- <-.
      destruct (IH a' b' eq_refl) as [-> Hn]. split; [reflexivity|]. intros H. inversion H; subst; [apply Hne; reflexivity|contradiction]. }
  destruct Hd as [-> Hn]. destruct (shard_ok label nlt hash Ho count ops r a b Hl Hm Hc Hp) as (n & H1 & H2 & _); [|exact Hn|exists n; auto].
  unfold ascii_only in *. apply Forall_app in Ha as [Ha _]. exact Ha.
Qed.
Lemma shard_none (r : ring node) data : has_colon data = false -> shard_write hash r data = Exn ValueError.
Proof using Type. unfold has_colon, shard_write. destruct (split1 c_colon data) as [[a b]|]; [discriminate|reflexivity]. Qed.

Lemma cluster_step nodes h e c arr ow graves : fair nodes e -> cluster_ok h c arr ow graves ->
  exists arr' ow' graves', cluster_ok (h ++ [e]) (cstep hash (fun n => site_step (sites n)) (fun _ => fresh) c e) arr' ow' graves'.
Proof using Type.
  intros Hf [H1 H0 H2 H5 H3 H4].
  assert (Hw : forall x, written (h ++ [x]) = written h ++ written [x]) by (intros; apply flat_map_app).
  assert (Ho : forall x, owned (h ++ [x]) = owned h ++ owned [x]) by (intros; apply flat_map_app).
  assert (H3' : Forall (from_write (h ++ [e])) (c_sent c ++ c_extra c)) by (eapply Forall_impl; [exact H3|]; intros x; apply from_more).
  assert (Hskip : forall y, (forall r d, y <> CWrite r d) -> (forall n x, y <> CLocal n x) -> written (h ++ [y]) = written h /\ owned (h ++ [y]) = owned h).
  { intros y Hy Hz. rewrite Hw, Ho. destruct y as [r d|? ?|?|?|n x|?]; cbn; rewrite !app_nil_r; auto; exfalso; [eapply Hy|eapply Hz]; reflexivity. }
  destruct e as [r data|i from|i|i|n e|n]; cbn [cstep].
  - destruct Hf as [Hu Ha]. exists arr, ow, graves.
    assert (O : owned (h ++ [CWrite r data]) = owned h) by (rewrite Ho; cbn; apply app_nil_r).
    destruct (has_colon data) eqn:Eh.
    + destruct (fair_colon nodes r data Hu Ha Eh) as (n & Hs & _). rewrite Hs. split; cbn [c_sent c_extra c_transit c_lost c_node c_dead]; rewrite ?O; try assumption.
      * rewrite <- app_assoc, (Permutation_app_comm [_]), app_assoc, H1, <- !app_assoc. do 3 apply Permutation_app_head. apply Permutation_app_comm.
      * apply Forall_app in H3' as [A1 A2]. rewrite !Forall_app. split; [split; [exact A1|constructor; [|constructor]]|exact A2].
        exists r. split; [apply in_or_app; right; left; reflexivity|exact Hs].
      * rewrite map_app, H4, Hw, List.filter_app. cbn. rewrite Eh. reflexivity.
    + rewrite (shard_none r data Eh). split; cbn [c_sent c_extra c_transit c_lost c_node c_dead]; rewrite ?O; try assumption.
      rewrite H4, Hw, List.filter_app. cbn. rewrite Eh, app_nil_r. reflexivity.
  - destruct (Hskip (CArrive i from)) as [W O]; try discriminate.
    destruct (c_transit c !! i) as [[n data]|] eqn:Ei.
    + exists (arr ++ [(n, data)]), ow, graves. split; cbn [c_sent c_extra c_transit c_lost c_node c_dead]; rewrite ?O, ?W; try assumption.
      * rewrite H1, <- !app_assoc. apply Permutation_app_head. rewrite (delete_Permutation _ _ _ Ei) at 1.
        cbn [app]. rewrite <- Permutation_middle. reflexivity.
      * intros m. destruct (H2 m) as (es & out & Q1 & Q2 & Q3 & Q4). unfold upd.
        destruct (decide (m = n)) as [->|Hne].
        -- exists (es ++ [DNet (SDatagram from data)]), (out ++ [(from, data)]). split; [rewrite fold_left_app, Q1; reflexivity|].
           rewrite nets_app, own_app. cbn [nets own flat_map app]. rewrite app_nil_r. split; [apply arrivals_datagram, Q2|].
           split; [|exact Q4]. rewrite map_app, Q3, at_app, at_cons. cbn [fst snd map]. destruct (decide (n = n)); [reflexivity|contradiction].
        -- exists es, out. split; [exact Q1|]. split; [exact Q2|]. split; [|exact Q4]. rewrite Q3, at_app, at_cons. cbn [fst].
           destruct (decide (n = m)) as [->|_]; [contradiction|]. rewrite app_nil_r. reflexivity.
    + exists arr, ow, graves. split; rewrite ?O, ?W; assumption.
  - destruct (Hskip (CLose i)) as [W O]; try discriminate.
    exists arr, ow, graves. destruct (c_transit c !! i) as [x|] eqn:Ei; (split; cbn [c_sent c_extra c_transit c_lost c_node c_dead]; rewrite ?O, ?W; try assumption).
    rewrite H1. apply Permutation_app_head. rewrite (delete_Permutation _ _ _ Ei) at 1. cbn [app].
    rewrite app_assoc, <- Permutation_cons_append. reflexivity.
  - destruct (Hskip (CCopy i)) as [W O]; try discriminate.
    exists arr, ow, graves. destruct (c_transit c !! i) as [x|] eqn:Ei; (split; cbn [c_sent c_extra c_transit c_lost c_node c_dead]; rewrite ?O, ?W; try assumption).
    + rewrite app_assoc, H1, <- !app_assoc. do 3 apply Permutation_app_head. apply Permutation_app_comm.
    + rewrite app_assoc. apply Forall_app. split; [exact H3'|]. constructor; [|constructor].
      rewrite H1 in H3'. apply Forall_app in H3' as [_ A]. apply Forall_app in A as [A _]. rewrite Forall_lookup in A. eapply A, Ei.
  - destruct Hf as [Hn Hf]. exists arr, (ow ++ owned [CLocal n e]), graves.
    assert (W : written (h ++ [CLocal n e]) = written h) by (rewrite Hw; cbn; apply app_nil_r).
    split; cbn [c_sent c_extra c_transit c_lost c_node c_dead]; rewrite ?W; try assumption.
    { rewrite Ho, H0, <- !app_assoc. apply Permutation_app_head, Permutation_app_comm. }
    intros m. destruct (H2 m) as (es & out & Q1 & Q2 & Q3 & Q4). unfold upd.
    destruct (decide (m = n)) as [->|Hne].
    + exists (es ++ [e]), out. split; [rewrite fold_left_app, Q1; reflexivity|]. rewrite nets_app, own_app, at_app, Q4.
      destruct e as [[a d|j d|j]|x| |j l|j]; try contradiction; cbn [nets own owned flat_map app]; rewrite ?app_nil_r;
        (split; [try exact Q2; apply arrivals_run, Q2|]); (split; [exact Q3|]); try reflexivity;
        try (symmetry; apply app_nil_r).
      rewrite at_cons. cbn [fst snd]. destruct (decide (n = n)); [reflexivity|contradiction].
    + exists es, out. split; [exact Q1|]. split; [exact Q2|]. split; [exact Q3|]. rewrite at_app, Q4.
      destruct e as [[a d|j d|j]|x| |j l|j]; try contradiction; cbn [owned flat_map app]; rewrite ?app_nil_r; try reflexivity;
        try (symmetry; apply app_nil_r).
      rewrite at_cons. cbn [fst]. destruct (decide (n = m)) as [->|_]; [contradiction|]. symmetry. apply app_nil_r.
  - destruct (Hskip (CCrash n)) as [W O]; try discriminate. cbn [fair] in Hf.
    exists (elsewhere n arr), (elsewhere n ow), (graves ++ [(n, (at_node n arr, at_node n ow))]).
    unfold buried, buried_own in *.
    split; cbn [c_sent c_extra c_transit c_lost c_node c_dead]; unfold buried, buried_own; rewrite ?O, ?W; try assumption.
    + rewrite H1. apply Permutation_app_tail. rewrite flat_map_app. cbn [flat_map fst snd]. rewrite app_nil_r.
      rewrite (Permutation_app_comm (flat_map _ graves)), app_assoc. apply Permutation_app_tail, split_node.
    + rewrite H0. rewrite flat_map_app. cbn [flat_map fst snd]. rewrite app_nil_r.
      rewrite (Permutation_app_comm (flat_map _ graves)), app_assoc. apply Permutation_app_tail, split_node.
    + intros m. rewrite !at_elsewhere. unfold upd. destruct (decide (m = n)) as [->|Hne]; [|apply H2].
      exists [], []. repeat split. constructor.
    + apply Forall2_app; [exact H5|]. constructor; [|constructor]. cbn [fst snd]. split; [reflexivity|apply H2].
Qed.
Lemma cluster_run nodes h : Forall (fair nodes) h -> exists arr ow graves, cluster_ok h (run_cluster h) arr ow graves.
Proof using Type.
  induction h as [|e h IH] using rev_ind; intros Hf.
  - exists [], [], []. split; cbn; try constructor. intros n. exists [], []. repeat split. constructor.
  - apply Forall_app in Hf as [Hf He]. inversion_clear He as [|? ? Hx _]. destruct (IH Hf) as (arr & ow & graves & Ha).
    destruct (cluster_step nodes h e _ arr ow graves Hx Ha) as (arr' & ow' & graves' & Ha'). exists arr', ow', graves'.
    unfold run_cluster, crun in *. rewrite fold_left_app. exact Ha'.
Qed.
(** the dead were at the nodes of the cluster *)
Lemma dead_nodes nodes h : Forall (fair nodes) h -> Forall (fun d => fst d ∈ nodes) (c_dead (run_cluster h)).
Proof using Type.
  induction h as [|e h IH] using rev_ind; intros Hf; [constructor|].
  apply Forall_app in Hf as [Hf He]. inversion_clear He as [|? ? Hx _]. specialize (IH Hf).
  unfold run_cluster, crun in *. rewrite fold_left_app. cbn [fold_left]. set (c := fold_left _ h _) in *.
  destruct e as [r data|i from|i|i|n e|n]; cbn [cstep]; try (destruct (shard_write hash r data)); try (destruct (c_transit c !! i) as [[? ?]|]);
    cbn [c_dead]; try exact IH.
  apply Forall_app. split; [exact IH|]. constructor; [exact Hx|constructor].
Qed.
End run.

(** what one daemon has sent, holds in flushes, stores and has scheduled of a counter *)
Definition node_holds `{NN : Num} (key : str) (d : @daemon NN mst) (x : num) : Prop :=
  exists w, amount key (v_pending (d_srv d)) w /\
    x = nadd (nadd (counts_in key (map (fun c => snd (fst c)) (d_calls d)))
          (nadd (counts_in key (flat_map pending (map snd (d_live d) ++ d_gone d)))
                (default n0 (p_counter (d_proc d) !! key)))) w.
(** nothing of a counter has ever reached a daemon *)
Definition node_without `{NN : Num} (key : str) (d : @daemon NN mst) : Prop :=
  silent key (map (fun c => snd (fst c)) (d_calls d)) /\
  silent key (flat_map pending (map snd (d_live d) ++ d_gone d)) /\
  p_counter (d_proc d) !! key = None /\ Forall (fun m => ~ counter_touch m key) (v_pending (d_srv d)).

Section conserved.
Context `{NN : Num} {NL : NumLaw NN} {NX : NumExact NN} {node : Type} `{!EqDecision node} (hash : str -> Z) (G : engine)
  (sites : node -> site) (nodes : list node) (h : list (cevent node)).
Context (Hnd : NoDup nodes) (Hf : Forall (fair hash nodes) h)
  (Hi : forall n, n ∈ nodes -> 1000 <= s_interval (sites n)).
Notation c := (run_cluster hash G sites h).

Lemma from_nodes x : from_write hash h x -> fst x ∈ nodes.
Proof using Hf.
  intros (r & Hin & Hs). rewrite Forall_forall in Hf. destruct (Hf _ (proj2 (elem_of_list_In _ _) Hin)) as [Hu Ha].
  destruct (has_colon (snd x)) eqn:Eh.
  - destruct (fair_colon hash nodes r (snd x) Hu Ha Eh) as (n & Hn & Hin'). rewrite Hn in Hs. injection Hs as Hs. rewrite <- Hs. exact Hin'.
  - rewrite (shard_none hash r (snd x) Eh) in Hs. discriminate.
Qed.
Lemma owned_nodes : Forall (fun x => fst x ∈ nodes) (owned h).
Proof using Hf.
  clear Hi Hnd. induction h as [|e h' IH]; [constructor|]. inversion_clear Hf as [|? ? He Hf']. unfold owned. cbn [flat_map].
  apply Forall_app. split; [|apply IH, Hf']. destruct e as [? ?|? ?|?|?|n [?|x| |? ?|?]|?]; try constructor; [|constructor]. exact (proj1 He).
Qed.
Lemma metrics_amount key n (out : list (str * str)) x : (forall a, ~ contribution key (m_message (s_mon (sites n))) a) ->
  amount key (metrics_in (s_mon (sites n)) out) x -> amount key (map snd out) x.
Proof using NL NX.
  intros Hm Ha. set (p := fun m => negb (str_eqb m (m_message (s_mon (sites n))))).
  apply (amount_drop key p).
  { intros m a Hp. subst p. cbn beta in Hp. apply negb_false_iff, str_eqb_eq in Hp. subst m. apply Hm. }
  unfold metrics_in in Ha. replace (List.filter p (map snd out)) with (map snd (List.filter (fun x => p (snd x)) out)); [exact Ha|].
  clear Ha. induction out as [|y out IH]; [reflexivity|]. cbn [List.filter map]. destruct (p (snd y)); cbn [map]; rewrite IH; reflexivity.
Qed.
Lemma one_node key n : n ∈ nodes -> (forall a, ~ contribution key (m_message (s_mon (sites n))) a) ->
  forall d got mine, history_of G sites n d got mine -> exists x, node_holds key d x /\ amount key (got ++ mine) x.
Proof using NL NX Hi.
  intros Hn Hm d got mine (es & out & Q1 & Q2 & Q3 & Q4).
  destruct (daemon_arrived (s_env (sites n)) (s_plugins (sites n)) G (s_interval (sites n)) (s_percent (sites n)) (s_mon (sites n)) (s_max (sites n))
    (s_refuses (sites n)) [] [] [] [] [] (no_rules_built G) no_rules_text eq_refl (Hi n Hn) [] es out key Q2) as (w & a & Hw & Ha & He).
  { apply Forall_forall. intros m _ t k fs _. constructor. }
  exists (nsum a). split.
  - exists (nsum w). rewrite Q1. split; [exists w; split; [exact Hw|reflexivity]|]. symmetry. exact He.
  - destruct (amount_exists key (metrics_in (s_mon (sites n)) out)) as (x & Hx). destruct (amount_exists key (own es)) as (y & Hy).
    assert (Hxy : amount key (metrics_in (s_mon (sites n)) out ++ own es) (nadd x y)) by (apply amount_app; assumption).
    assert (Has : amount key (metrics_in (s_mon (sites n)) out ++ own es) (nsum a)) by (exists a; auto).
    rewrite (amount_fun key _ _ _ Has Hxy). rewrite <- Q3, <- Q4. apply amount_app; [eapply metrics_amount; eassumption|exact Hy].
Qed.
(** the same for any list of daemons *)
Lemma many_nodes key {X} (at_ : X -> node) (dm : X -> @daemon NN mst) (got mine : X -> list str) (l : list X) :
  (forall n a, n ∈ nodes -> ~ contribution key (m_message (s_mon (sites n))) a) ->
  Forall (fun x => at_ x ∈ nodes /\ history_of G sites (at_ x) (dm x) (got x) (mine x)) l ->
  exists xs, Forall2 (fun x y => node_holds key (dm x) y) l xs /\ amount key (flat_map (fun x => got x ++ mine x) l) (nsum xs).
Proof using NL NX Hi.
  intros Hm H. induction H as [|x l [Hn Hh] _ (xs & A1 & A2)]; [exists []; split; [constructor|apply amount_none; constructor]|].
  destruct (one_node key (at_ x) Hn (fun a => Hm (at_ x) a Hn) _ _ _ Hh) as (y & B1 & B2). exists (y :: xs). split; [constructor; assumption|].
  cbn [flat_map]. rewrite nsum_cons. apply amount_app; assumption.
Qed.
Lemma no_colon_none key m a : has_colon m = false -> ~ contribution key m a.
Proof using Type.
  intros Hc (v & r & Hs & _).
  assert (Ht : exists t k fs, typed_line m t k fs) by (destruct Hs; eauto). destruct Ht as (t & k & fs & raw & Hl & _).
  destruct Hl as (Hst & _). unfold has_colon in Hc. destruct (split1 c_colon m) eqn:Es; [discriminate|].
  assert (Hin : c_colon ∈ m).
  { apply elem_of_list_In. destruct Hst as (a1 & b1 & -> & _). apply in_or_app. right. apply in_or_app. left. apply in_or_app. right. left. reflexivity. }
  clear - Es Hin. induction m as [|x m IH]; [inversion Hin|]. cbn [split1] in Es. unfold eqc in Es.
  destruct (Ascii.eqb_spec c_colon x) as [<-|Hne]; [discriminate|]. destruct (split1 c_colon m) as [[? ?]|]; [discriminate|].
  apply IH; [reflexivity|]. inversion Hin; subst; [contradiction|assumption].
Qed.

Lemma zip_dead (dead : list (node * @daemon NN mst)) graves :
  Forall (fun d => fst d ∈ nodes) dead ->
  Forall2 (fun d g => fst d = fst g /\ history_of G sites (fst d) (snd d) (fst (snd g)) (snd (snd g))) dead graves ->
  Forall (fun x => fst (fst x) ∈ nodes /\ history_of G sites (fst (fst x)) (snd (fst x)) (fst (snd (snd x))) (snd (snd (snd x)))) (zip dead graves) /\
  map fst (zip dead graves) = dead /\
  flat_map (fun x => fst (snd (snd x)) ++ snd (snd (snd x))) (zip dead graves) ≡ₚ map snd (buried graves) ++ map snd (buried_own graves).
Proof using Type.
  clear. intros Hd H. induction H as [|d g dead graves [He Hh] _ IH]; [repeat split; constructor|].
  inversion_clear Hd as [|? ? Hn Hd']. destruct (IH Hd') as (A1 & A2 & A3).
  split; [constructor; [split; assumption|exact A1]|]. split; [cbn; f_equal; exact A2|].
  change (zip (d :: dead) (g :: graves)) with ((d, g) :: zip dead graves). cbn [flat_map fst snd]. rewrite A3.
  unfold buried, buried_own. cbn [flat_map]. rewrite !map_app, !map_map. cbn [snd].
  rewrite !(map_ext (fun x : str => x) id) by reflexivity. rewrite !map_id. rewrite <- !app_assoc. apply Permutation_app_head.
  rewrite !app_assoc. apply Permutation_app_tail. apply Permutation_app_comm.
Qed.

Theorem cluster_conserves key :
  (forall n a, n ∈ nodes -> ~ contribution key (m_message (s_mon (sites n))) a) ->
  exists xs ys on_way lost extra new own_lines,
    Forall2 (fun n x => node_holds key (c_node c n) x) nodes xs /\
    Forall2 (fun d y => node_holds key (snd d) y) (c_dead c) ys /\
    amount key (map snd (c_transit c)) on_way /\ amount key (map snd (c_lost c)) lost /\
    amount key (map snd (c_extra c)) extra /\ amount key (written h) new /\ amount key (map snd (owned h)) own_lines /\
    nadd (nadd (nsum xs) (nsum ys)) (nadd on_way lost) = nadd (nadd new extra) own_lines.
Proof using NL NX Hi Hf Hnd.
  intros Hm. destruct (cluster_run hash G sites nodes h Hf) as (arr & ow & graves & [H1 H0 H2 H5 H3 H4]).
  destruct (many_nodes key (fun n => n) (c_node c) (fun n => at_node n arr) (fun n => at_node n ow) nodes Hm) as (xs & Hxs & Hsum).
  { apply Forall_forall. intros n Hn. split; [exact Hn|apply H2]. }
  destruct (zip_dead (c_dead c) graves (dead_nodes hash G sites nodes h Hf) H5) as (Z1 & Z2 & Z3).
  destruct (many_nodes key (fun x => fst (fst x)) (fun x => snd (fst x)) (fun x => fst (snd (snd x))) (fun x => snd (snd (snd x))) _ Hm Z1) as (ys & Hys & Hdead).
  assert (Hys' : Forall2 (fun d y => node_holds key (snd d) y) (c_dead c) ys).
  { rewrite <- Z2. clear - Hys. induction Hys; constructor; auto. }
  destruct (amount_exists key (map snd (c_transit c))) as (t & Ht). destruct (amount_exists key (map snd (c_lost c))) as (l & Hl).
  destruct (amount_exists key (map snd (c_extra c))) as (e & He). destruct (amount_exists key (written h)) as (w & Hw).
  destruct (amount_exists key (map snd (owned h))) as (o & Ho).
  exists xs, ys, t, l, e, w, o. do 7 (split; [assumption|]).
  assert (Hp : flat_map (fun n => at_node n arr ++ at_node n ow) nodes ≡ₚ map snd arr ++ map snd ow).
  { rewrite <- map_app. rewrite <- (at_all (arr ++ ow) nodes Hnd).
    - clear. induction nodes as [|n ns IH]; [reflexivity|]. cbn [flat_map]. rewrite at_app, IH. reflexivity.
    - apply Forall_app. split.
      + rewrite H1 in H3. apply Forall_app in H3 as [H3 _]. apply Forall_app in H3 as [H3 _].
        eapply Forall_impl; [exact H3|]. intros x. apply from_nodes.
      + pose proof owned_nodes as Hon. rewrite H0 in Hon. apply Forall_app in Hon as [Hon _]. exact Hon. }
  apply (amount_perm key _ _ _ Hp) in Hsum. apply (amount_perm key _ _ _ Z3) in Hdead.
  pose proof (amount_app key _ _ _ _ (amount_app key _ _ _ _ Hsum Hdead) (amount_app key _ _ _ _ Ht Hl)) as HL.
  assert (Hw' : amount key (map snd (c_sent c)) w).
  { rewrite H4. exact (proj1 (amount_drop key has_colon (written h) w (fun m a => no_colon_none key m a)) Hw). }
  pose proof (amount_app key _ _ _ _ (amount_app key _ _ _ _ Hw' He) Ho) as HR.
  eapply amount_fun; [exact HL|]. eapply amount_perm; [|exact HR]. rewrite <- map_app, H1, H0, !map_app, <- !app_assoc.
  apply Permutation_app_head. rewrite (app_assoc (map snd (c_transit c))).
  rewrite (Permutation_app_comm (map snd (c_transit c) ++ _)), <- !app_assoc. apply Permutation_app_swap_app.
Qed.

(** one name, one ring: one daemon *)
Theorem cluster_one key (r : ring node) raw :
  c_colon ∉ raw -> ascii_only raw -> usable hash nodes r ->
  (forall n, n ∈ nodes -> ~ counter_touch (m_message (s_mon (sites n))) key) ->
  (forall r' data, In (CWrite r' data) h -> counter_touch data key -> r' = r /\ exists rest, data = raw ++ B ":" ++ rest) ->
  Forall (fun x => ~ counter_touch (snd x) key) (owned h) ->
  exists n x ys on_way lost extra new, n ∈ nodes /\
    (forall rest, shard_write hash r (raw ++ B ":" ++ rest) = Ok [(n, raw ++ B ":" ++ rest)]) /\
    (forall m, m ∈ nodes -> m <> n -> node_without key (c_node c m)) /\
    (forall m d, In (m, d) (c_dead c) -> m <> n -> node_without key d) /\
    node_holds key (c_node c n) x /\ Forall2 (fun d y => node_holds key (snd d) y) (c_dead c) ys /\
    amount key (map snd (c_transit c)) on_way /\ amount key (map snd (c_lost c)) lost /\
    amount key (map snd (c_extra c)) extra /\ amount key (written h) new /\
    nadd (nadd x (nsum ys)) (nadd on_way lost) = nadd new extra.
Proof using NL NX Hi Hf Hnd.
  intros Hraw Hasc Hu Hm Hone Hown.
  assert (Htouch : forall m a, contribution key m a -> counter_touch m key).
  { intros m a (v & q & Hs & _). destruct Hs; [eapply ct_plain|eapply ct_rate]; eassumption. }
  destruct Hu as (label & nlt & count & ops & Ho & Hl & Hmb & Hc & Hp & Hin).
  destruct (shard_ok label nlt hash Ho count ops r raw [] Hl Hmb Hc Hp Hasc Hraw) as (n & Hn & Hnp & _).
  assert (Hn' : forall rest, shard_write hash r (raw ++ B ":" ++ rest) = Ok [(n, raw ++ B ":" ++ rest)]).
  { intros rest. revert Hn. unfold shard_write. rewrite !(split1_colon raw _ Hraw). destruct (get_node hash r raw); [|discriminate].
    intros [= <-]. reflexivity. }
  destruct (cluster_run hash G sites nodes h Hf) as (arr & ow & graves & [H1 H0 H2 H5 H3 H4]).
  (* no datagram about [key] goes elsewhere *)
  assert (Hfrom : forall x, from_write hash h x -> fst x <> n -> ~ counter_touch (snd x) key).
  { intros [m d] (r' & Hw & Hs) Hne Ht. cbn [fst snd] in *. destruct (Hone r' d Hw Ht) as (-> & rest & ->). rewrite Hn' in Hs. injection Hs as ->. contradiction. }
  assert (Hsplit : forall l m, m <> n -> Forall (fun x => fst x <> n -> ~ counter_touch (snd x) key) l -> Forall (fun d => ~ counter_touch d key) (at_node m l)).
  { intros l m Hne HF. apply Forall_forall. intros d Hd. unfold at_node in Hd. apply elem_of_list_In, in_map_iff in Hd as (x & <- & Hd). apply filter_In in Hd as [Hd Hdec].
    destruct (decide (fst x = m)) as [Hx|]; [|discriminate]. rewrite Forall_forall in HF. apply (HF x (proj2 (elem_of_list_In _ _) Hd)). congruence. }
  assert (H3' : Forall (fun x => fst x <> n -> ~ counter_touch (snd x) key) (arr ++ buried graves)).
  { rewrite H1 in H3. apply Forall_app in H3 as [H3 _]. eapply Forall_impl; [exact H3|]. intros x Hx. apply Hfrom, Hx. }
  assert (Hown' : Forall (fun x => ~ counter_touch (snd x) key) (ow ++ buried_own graves)) by (rewrite <- H0; exact Hown).
  apply Forall_app in H3' as [HA HB]. apply Forall_app in Hown' as [HC HD].
  destruct (cluster_conserves key) as (xs & ys & t & l & e & w & o & Hxs & Hys & Ht & Hlo & He & Hw & Hoo & Heq).
  { intros m a Hmn Hcon. apply (Hm m Hmn). eapply Htouch. exact Hcon. }
  assert (Ho0 : o = n0).
  { eapply amount_fun; [exact Hoo|]. apply amount_none. apply Forall_map. eapply Forall_impl; [exact Hown|]. intros x Hx a Ha. apply Hx. eapply Htouch. exact Ha. }
  assert (Hgen : forall m d got mine, m ∈ nodes -> history_of G sites m d got mine -> Forall (fun x => ~ counter_touch x key) got ->
    Forall (fun x => ~ counter_touch x key) mine -> node_without key d).
  { intros m d got mine Hmn (es & out & Q1 & Q2 & Q3 & Q4) Hg Hmi. unfold node_without. rewrite Q1.
    apply (daemon_quiet (s_env (sites m)) (s_plugins (sites m)) G (s_interval (sites m)) (s_percent (sites m)) (s_mon (sites m)) (s_max (sites m))
      (s_refuses (sites m)) (Hi m Hmn) [] es out key Q2).
    apply Forall_app. split; [|rewrite Q4; exact Hmi]. unfold metrics_in. apply Forall_forall. intros x Hx.
    apply elem_of_list_In, in_map_iff in Hx as (y & <- & Hy). apply filter_In in Hy as [Hy _].
    rewrite <- Q3, Forall_forall in Hg. apply Hg. apply elem_of_list_In, in_map, Hy. }
  assert (Hquiet : forall m, m ∈ nodes -> m <> n -> node_without key (c_node c m)).
  { intros m Hmn Hne. apply (Hgen m _ _ _ Hmn (H2 m)); [apply Hsplit; assumption|].
    apply Hsplit; [exact Hne|]. eapply Forall_impl; [exact HC|]. intros x Hx _. exact Hx. }
  assert (Hdead : forall m d, In (m, d) (c_dead c) -> m <> n -> node_without key d).
  { intros m d Hd Hne. pose proof (dead_nodes hash G sites nodes h Hf) as Hdn. rewrite Forall_forall in Hdn.
    pose proof (Hdn _ (proj2 (elem_of_list_In _ _) Hd)) as Hmn. cbn [fst] in Hmn.
    apply elem_of_list_In, elem_of_list_lookup in Hd as (i & Hd). destruct (Forall2_lookup_l _ _ _ _ _ H5 Hd) as (g & Hg & Hfg & Hh). cbn [fst snd] in *.
    assert (Hgin : In g graves) by (apply elem_of_list_In, elem_of_list_lookup; eauto).
    apply (Hgen m d _ _ Hmn Hh).
    - apply Forall_forall. intros x Hx. rewrite Forall_forall in HB. apply (HB (fst g, x)); [|cbn [fst]; congruence].
      apply elem_of_list_In. unfold buried. apply in_flat_map. exists g. split; [exact Hgin|]. apply in_map. apply elem_of_list_In. exact Hx.
    - apply Forall_forall. intros x Hx. rewrite Forall_forall in HD. apply (HD (fst g, x)).
      apply elem_of_list_In. unfold buried_own. apply in_flat_map. exists g. split; [exact Hgin|]. apply in_map. apply elem_of_list_In. exact Hx. }
  assert (Hzero : forall m x, m ∈ nodes -> m <> n -> node_holds key (c_node c m) x -> x = n0).
  { intros m x Hmn Hne Hx. destruct (Hquiet m Hmn Hne) as (Z1 & Z2 & Z3 & Z4). destruct Hx as (w' & Hw' & ->).
    assert (Hcz : forall L, silent key L -> counts_in key L = n0).
    { intros L HL. unfold counts_in. induction HL as [|d L Hd _ IH]; [reflexivity|]. cbn [map]. rewrite nsum_cons, IH.
      unfold count_of. destruct (str_eqb _ _) eqn:Eq; [apply str_eqb_eq in Eq; contradiction|]. apply nadd_0_l. }
    rewrite (Hcz _ Z1), (Hcz _ Z2), Z3. cbn [default from_option].
    rewrite (amount_fun key _ _ _ Hw' (amount_none key _ (Forall_impl _ _ _ Z4 (fun m0 Hm0 a Ha => Hm0 (Htouch m0 a Ha))))).
    rewrite !nadd_0_l. reflexivity. }
  assert (Hsum : forall ns ys, Forall2 (fun n x => node_holds key (c_node c n) x) ns ys -> NoDup ns -> (forall m, m ∈ ns -> m ∈ nodes) ->
    (n ∉ ns -> nsum ys = n0) /\ (n ∈ ns -> node_holds key (c_node c n) (nsum ys))).
  { clear ys Hys Heq. induction 1 as [|m y ns ys Hy _ IH]; intros Hd Hs; [split; [reflexivity|intros Hq; inversion Hq]|].
    inversion_clear Hd as [|? ? Hm' Hd']. destruct (IH Hd' (fun m0 Hm0 => Hs m0 (elem_of_list_further _ _ _ Hm0))) as [I1 I2].
    rewrite nsum_cons. split.
    - intros Hq. rewrite I1 by (intros Hr; apply Hq; right; exact Hr). rewrite (Hzero m y); [apply nadd_0_l|apply Hs; left|intros ->; apply Hq; left|exact Hy].
    - intros Hq. destruct (decide (m = n)) as [->|Hne].
      + rewrite I1 by exact Hm'. rewrite nadd_0_r. exact Hy.
      + rewrite (Hzero m y); [|apply Hs; left|exact Hne|exact Hy]. rewrite nadd_0_l. apply I2. inversion Hq; subst; [contradiction|assumption]. }
  destruct (Hsum nodes xs Hxs Hnd (fun m H => H)) as [_ Hhold].
  exists n, (nsum xs), ys, t, l, e, w. split; [apply Hin, Hnp|]. split; [exact Hn'|]. split; [exact Hquiet|]. split; [exact Hdead|].
  split; [apply Hhold, Hin, Hnp|]. do 5 (split; [assumption|]). rewrite Heq, Ho0, nadd_0_r. reflexivity.
Qed.
End conserved.
