From Verif Require Import Base StrFacts Num Env Process Metrics Gen Processor Configurable Client Router Server Service
  LineSpec LineFacts RouterSpec RouterFacts ProcessSpec ProcessFacts ServiceSpec ServiceFacts Assembly AssemblySpec.

(** ** the values *)
Section values.
Context (files : str -> list section) (args : list (flag * str)) (Hw : well_formed files).
Notation value_of := (value_of files args).

Lemma parsed_value o n c d k : parse_options files args = Ok o -> In (n, c, d, k) documented ->
  exists vs xs, supplied files args n vs /\ Forall2 (reads_as k) vs xs /\ o !! n = Some (settled k d xs) /\ value_of n (settled k d xs).
Proof using Hw.
  intros Hp Hi. pose proof (proj2 (table_documented _) Hi) as Ht.
  destruct (option_value files args o n c d k Hw Hp Ht) as (vs & xs & Hs & Hr & Hv).
  exists vs, xs. split; [exact Hs|]. split; [exact Hr|]. split; [exact Hv|]. exists c, d, k, vs, xs. auto.
Qed.
Lemma read_int v x : reads_as KInt v x -> exists z, x = OI z.
Proof. intros H. inversion H; eauto. Qed.
Lemma read_str v x : reads_as KStr v x -> exists z, x = OS z.
Proof. intros H. inversion H; eauto. Qed.
Lemma settled_int d vs xs : Forall2 (reads_as KInt) vs xs -> settled KInt d xs = d \/ exists z, settled KInt d xs = OI z.
Proof.
  intros H. cbn [settled]. destruct (last xs) as [x|] eqn:E; [right|left; reflexivity].
  apply last_Some in E as [l ->]. apply Forall2_app_inv_r in H as (l1 & l2 & _ & H & _). inversion H; subst. eapply read_int; eassumption.
Qed.
Lemma settled_str d vs xs : Forall2 (reads_as KStr) vs xs -> settled KStr d xs = d \/ exists z, settled KStr d xs = OS z.
Proof.
  intros H. cbn [settled]. destruct (last xs) as [x|] eqn:E; [right|left; reflexivity].
  apply last_Some in E as [l ->]. apply Forall2_app_inv_r in H as (l1 & l2 & _ & H & _). inversion H; subst. eapply read_str; eassumption.
Qed.
Lemma got_int o n c z : parse_options files args = Ok o -> In (n, c, OI z, KInt) documented ->
  exists x, opt_int o n = Ok x /\ value_of n (OI x).
Proof using Hw.
  intros Hp Hi. destruct (parsed_value o n c _ _ Hp Hi) as (vs & xs & _ & Hr & Ho & Hv). unfold opt_int. rewrite Ho.
  destruct (settled_int (OI z) vs xs Hr) as [E|[y E]]; rewrite E in *; eauto.
Qed.
Lemma got_int_or o n c : parse_options files args = Ok o -> In (n, c, ONone, KInt) documented ->
  exists x v, opt_int_or o n = Ok v /\ value_of n x /\ maybe_int x v.
Proof using Hw.
  intros Hp Hi. destruct (parsed_value o n c _ _ Hp Hi) as (vs & xs & _ & Hr & Ho & Hv). unfold opt_int_or. rewrite Ho.
  destruct (settled_int ONone vs xs Hr) as [E|[y E]]; rewrite E in *; [exists ONone, None|exists (OI y), (Some y)]; split; auto; split; auto; reflexivity.
Qed.
Lemma got_str o n c z : parse_options files args = Ok o -> In (n, c, OS z, KStr) documented ->
  exists x, opt_str o n = Ok x /\ value_of n (OS x).
Proof using Hw.
  intros Hp Hi. destruct (parsed_value o n c _ _ Hp Hi) as (vs & xs & _ & Hr & Ho & Hv). unfold opt_str. rewrite Ho.
  destruct (settled_str (OS z) vs xs Hr) as [E|[y E]]; rewrite E in *; eauto.
Qed.
Lemma got_str_or o n c : parse_options files args = Ok o -> In (n, c, ONone, KStr) documented ->
  exists x v, opt_str_or o n = Ok v /\ value_of n x /\ maybe_str x v.
Proof using Hw.
  intros Hp Hi. destruct (parsed_value o n c _ _ Hp Hi) as (vs & xs & _ & Hr & Ho & Hv). unfold opt_str_or. rewrite Ho.
  destruct (settled_str ONone vs xs Hr) as [E|[y E]]; rewrite E in *; [exists ONone, None|exists (OS y), (Some y)]; split; auto; split; auto; reflexivity.
Qed.
Lemma strs_read k vs xs : k = KHost \/ k = KName -> Forall2 (reads_as k) vs xs -> xs = map OS vs.
Proof. intros Hk H. induction H as [|v x vs xs H _ IH]; [reflexivity|]. cbn [map]. rewrite IH. f_equal. destruct Hk as [->| ->]; inversion H; reflexivity. Qed.
Lemma ports_read vs xs : Forall2 (reads_as KPort) vs xs -> exists zs, xs = map OI zs.
Proof.
  intros H. induction H as [|v x vs xs H _ [zs ->]]; [exists []; reflexivity|]. inversion H; subst. exists (z :: zs). reflexivity.
Qed.
Lemma rmap_strs l : rmap as_str (map OS l) = Ok l.
Proof. induction l as [|s l IH]; [reflexivity|]. cbn. rewrite IH. reflexivity. Qed.
Lemma rmap_ints l : rmap as_int (map OI l) = Ok l.
Proof. induction l as [|s l IH]; [reflexivity|]. cbn. rewrite IH. reflexivity. Qed.
Lemma got_strs o n c k : k = KHost \/ k = KName -> parse_options files args = Ok o -> In (n, c, OL [], k) documented ->
  exists l, opt_list o n = Ok (map OS l) /\ value_of n (OL (map OS l)).
Proof using Hw.
  intros Hk Hp Hi. destruct (parsed_value o n c _ _ Hp Hi) as (vs & xs & _ & Hr & Ho & Hv). unfold opt_list. rewrite Ho.
  apply (strs_read k) in Hr; [|exact Hk]. subst xs. exists vs. destruct Hk as [->| ->]; cbn [settled] in *; auto.
Qed.
Lemma got_ports o n c : parse_options files args = Ok o -> In (n, c, OL [], KPort) documented ->
  exists l, opt_list o n = Ok (map OI l) /\ value_of n (OL (map OI l)).
Proof using Hw.
  intros Hp Hi. destruct (parsed_value o n c _ _ Hp Hi) as (vs & xs & _ & Hr & Ho & Hv). unfold opt_list. rewrite Ho.
  apply ports_read in Hr as [zs ->]. exists zs. cbn [settled] in *; auto.
Qed.

(** one value *)
Lemma int_text_fun s a b : int_text s a -> int_text s b -> a = b.
Proof. intros H1 H2. apply parse_int_iff in H1, H2. congruence. Qed.
Lemma reads_as_fun k v x y : reads_as k v x -> reads_as k v y -> x = y.
Proof. intros H1 H2. destruct k; inversion H1; inversion H2; subst; try reflexivity; (f_equal; eapply int_text_fun; eassumption). Qed.
Lemma reads_all_fun k vs xs ys : Forall2 (reads_as k) vs xs -> Forall2 (reads_as k) vs ys -> xs = ys.
Proof.
  intros H. revert ys. induction H as [|v x vs xs H _ IH]; intros ys H2; inversion H2; subst; [reflexivity|].
  f_equal; [eapply reads_as_fun; eassumption|auto].
Qed.
Lemma documented_fun n c d k c' d' k' : In (n, c, d, k) documented -> In (n, c', d', k') documented -> c = c' /\ d = d' /\ k = k'.
Proof.
  assert (HN : NoDup (map (fun x => fst (fst (fst x))) documented)) by (apply (bool_decide_eq_true_1 _); vm_compute; reflexivity).
  intros H1 H2. apply elem_of_list_In in H1, H2.
  apply elem_of_list_lookup in H1 as [i Hi], H2 as [j Hj].
  assert (i = j). { eapply (NoDup_lookup _ i j n HN); rewrite list_lookup_fmap; [rewrite Hi|rewrite Hj]; reflexivity. }
  subst j. rewrite Hi in Hj. injection Hj as -> -> ->. auto.
Qed.
Lemma value_fun n x y : value_of n x -> value_of n y -> x = y.
Proof using Hw.
  intros (c & d & k & vs & xs & H1 & H2 & H3 & ->) (c' & d' & k' & vs' & xs' & H1' & H2' & H3' & ->).
  destruct (documented_fun _ _ _ _ _ _ _ H1 H1') as (<- & <- & <-). rewrite <- (supplied_fun files args n _ _ Hw H2 H2') in H3'.
  rewrite (reads_all_fun _ _ _ _ H3 H3'). reflexivity.
Qed.
End values.

(** ** the reports *)
Lemma not_lower c : ~ In c lowers -> to_upper c = c.
Proof.
  intros H. assert (Hb : existsb (Ascii.eqb c) lowers = false).
  { apply not_true_is_false. intros E. apply existsb_exists in E as (x & Hx & E). apply Ascii.eqb_eq in E. subst x. exact (H Hx). }
  clear H. revert Hb. destruct c as [[] [] [] [] [] [] [] []]; vm_compute; intros; first [reflexivity|discriminate].
Qed.
Lemma lower_at c i : lowers !! i = Some c -> uppers !! i = Some (to_upper c).
Proof. intros H. do 26 (destruct i as [|i]; [injection H as <-; reflexivity|]). discriminate H. Qed.
Lemma upper_iff c d : up c d <-> to_upper c = d.
Proof.
  split.
  - intros [[H ->]|(i & H1 & H2)]; [apply not_lower, H|]. apply lower_at in H1. congruence.
  - intros <-. destruct (in_dec ascii_dec c lowers) as [H|H].
    + right. apply elem_of_list_In, elem_of_list_lookup in H as [i Hi]. exists i. split; [exact Hi|apply lower_at, Hi].
    + left. split; [exact H|apply not_lower, H].
Qed.
Lemma written_iff n W : written_as n W <-> map to_upper n = W.
Proof.
  split.
  - intros H. induction H as [|c d n W H _ IH]; [reflexivity|]. apply upper_iff in H. cbn. rewrite H, IH. reflexivity.
  - intros <-. induction n; constructor; [apply upper_iff; reflexivity|assumption].
Qed.
Lemma stats_eqb n W : str_eqb (map to_upper n ++ B "_STATS") (W ++ B "_STATS") = str_eqb (map to_upper n) W.
Proof.
  destruct (str_eqb (map to_upper n) W) eqn:E.
  - apply str_eqb_eq in E. rewrite E. apply str_eqb_eq. reflexivity.
  - apply not_true_is_false. intros H. apply str_eqb_eq in H. apply app_inv_tail in H. apply str_eqb_eq in H. congruence.
Qed.
Lemma group_iff n rs : group n rs <-> stats_of n = rs.
Proof.
  unfold stats_of.
  change (B "PROCESS_STATS") with (B "PROCESS" ++ B "_STATS"). change (B "COUNTER_STATS") with (B "COUNTER" ++ B "_STATS").
  change (B "IO_STATS") with (B "IO" ++ B "_STATS"). change (B "NET_STATS") with (B "NET" ++ B "_STATS").
  change (B "SYSTEM_STATS") with (B "SYSTEM" ++ B "_STATS"). rewrite !stats_eqb.
  split.
  - intros [W l Hin Hn|Hn].
    + apply written_iff in Hn. rewrite Hn. repeat destruct Hin as [Hin|Hin]; try contradiction; injection Hin as <- <-; reflexivity.
    + assert (H : forall W l, In (W, l) groups -> str_eqb (map to_upper n) W = false).
      { intros W l Hin. apply not_true_is_false. intros E. apply str_eqb_eq in E. apply (Hn W l Hin). apply written_iff, E. }
      unfold groups in H. cbn [In] in H.
      erewrite (H (B "PROCESS")), (H (B "COUNTER")), (H (B "IO")), (H (B "NET")), (H (B "SYSTEM")) by eauto 8. reflexivity.
  - intros <-.
    destruct (str_eqb (map to_upper n) (B "PROCESS")) eqn:E1; [apply str_eqb_eq in E1; apply (gr_known n (B "PROCESS")); [cbn; tauto|apply written_iff, E1]|].
    destruct (str_eqb (map to_upper n) (B "COUNTER")) eqn:E2; [apply str_eqb_eq in E2; apply (gr_known n (B "COUNTER")); [cbn; tauto|apply written_iff, E2]|].
    destruct (str_eqb (map to_upper n) (B "IO")) eqn:E3; [apply str_eqb_eq in E3; apply (gr_known n (B "IO")); [cbn; tauto|apply written_iff, E3]|].
    destruct (str_eqb (map to_upper n) (B "NET")) eqn:E4; [apply str_eqb_eq in E4; apply (gr_known n (B "NET")); [cbn; tauto|apply written_iff, E4]|].
    destruct (str_eqb (map to_upper n) (B "SYSTEM")) eqn:E5; [apply str_eqb_eq in E5; apply (gr_known n (B "SYSTEM")); [cbn; tauto|apply written_iff, E5]|].
    apply gr_other. intros W rs Hin Hn. apply written_iff in Hn. repeat destruct Hin as [Hin|Hin]; try contradiction; injection Hin as <- <-;
      apply str_eqb_eq in Hn; congruence.
Qed.
Lemma groups_iff ns gs : Forall2 group ns gs <-> map stats_of ns = gs.
Proof.
  split.
  - intros H. induction H as [|n g ns gs H _ IH]; [reflexivity|]. apply group_iff in H. cbn. rewrite H, IH. reflexivity.
  - intros <-. induction ns; constructor; [apply group_iff; reflexivity|assumption].
Qed.
Lemma names_iff text ns : names_in text ns <-> report_names text = ns.
Proof.
  unfold names_in, report_names. split.
  - intros (ps & H1 & H2). apply cut_iff in H1. apply Forall2_strip in H2. rewrite H1. exact H2.
  - intros <-. exists (split_on "," text). split; [apply cut_iff; reflexivity|apply Forall2_strip; reflexivity].
Qed.
Lemma asked_spec ns : asked_reports ns = (length (filter (fun n => n = B "reactor") ns), map (fun r => (r, 60)) (concat (map stats_of ns))).
Proof.
  induction ns as [|n ns IH]; [reflexivity|]. cbn [asked_reports map concat]. rewrite IH, map_app. f_equal.
  destruct (decide (n = B "reactor")) as [->|Hn].
  - rewrite filter_cons_True by reflexivity. reflexivity.
  - rewrite filter_cons_False by exact Hn. destruct (str_eqb n (B "reactor")) eqn:E; [apply str_eqb_eq in E; contradiction|reflexivity].
Qed.
Lemma scheduled_iff interval x l k : scheduled interval x l k <->
  (x = ONone /\ l = [(RCarbon, period_s interval)] /\ k = 0%nat) \/
  exists text, x = OS text /\ (k, l) = (let '(k, l) := asked_reports (report_names text) in (k, (RCarbon, period_s interval) :: (RReactor, 60) :: l)).
Proof.
  split.
  - intros [|text ns gs Hn Hg]; [left; auto|right]. exists text. split; [reflexivity|]. apply names_iff in Hn. apply groups_iff in Hg.
    rewrite Hn, asked_spec, Hg. reflexivity.
  - intros [(-> & -> & ->)|(text & -> & H)]; [constructor|]. rewrite asked_spec in H. injection H as -> ->.
    eapply sc_text; [apply names_iff; reflexivity|apply groups_iff; reflexivity].
Qed.

(** ** the whole *)
Section created.
Context (G : engine) (files : str -> list section) (args : list (flag * str)) (Hw : well_formed files).
Notation value_of := (value_of files args).
Context (configure_all : options -> res unit) (node : str) (o : options) (Hp : parse_options files args = Ok o).

Ltac doc := cbn [documented In]; tauto.
Ltac take_int n c z x H1 H2 := destruct (got_int files args Hw o (B n) c z Hp ltac:(doc)) as (x & H1 & H2).

Lemma class_chosen prefix inst dump compliance log_info info r :
  choose_processor prefix inst node dump compliance log_info = (info, r) ->
  let instance := match inst with Some i => if nonempty i then i else node | None => node end in
  (dump <> 0 /\ log_info = true /\ r = Exn AssertionError) \/
  (~ (dump <> 0 /\ log_info = true) /\ exists c, r = Ok c /\ class_of prefix instance dump compliance c).
Proof.
  intros H instance. unfold choose_processor in H. unfold class_of.
  destruct (Z.eqb_spec dump 0) as [Hd|Hd], (Z.eqb_spec compliance 0) as [Hc|Hc], log_info; cbn [negb andb] in H; injection H as <- <-;
    try (left; auto; fail); right; (split; [intros [? ?]; congruence|]); eexists; (split; [reflexivity|]);
    destruct prefix; tauto.
Qed.
Lemma created_spec log_info info r : create G configure_all node o log_info = (info, r) ->
  (exists e, configure_all o = Exn e /\ r = Exn e) \/
  (configure_all o = Ok tt /\ exists dump, value_of (B "dump-mode") (OI dump) /\ dump <> 0 /\ log_info = true /\ r = Exn AssertionError) \/
  (configure_all o = Ok tt /\ (exists dump, value_of (B "dump-mode") (OI dump) /\ ~ (dump <> 0 /\ log_info = true)) /\
   ((exists text e, value_of (B "routing") (OS text) /\ snd (build_rules G true text []) = Exn e /\ r = Exn e) \/
    (exists a, r = Ok a /\ described G files args node a))).
Proof using Hw Hp.
  unfold create.
  destruct (got_int files args Hw o (B "max-queue-size") "Q" 20000 Hp ltac:(doc)) as (queue & -> & Vq).
  destruct (got_int files args Hw o (B "max-datapoints-per-message") "M" 1000 Hp ltac:(doc)) as (batch & -> & Vb).
  destruct (got_str_or files args Hw o (B "prefix") "x" Hp ltac:(doc)) as (xp & prefix & -> & Vp & Mp).
  destruct (got_str_or files args Hw o (B "instance-name") "N" Hp ltac:(doc)) as (xi & inst & -> & Vi & Mi).
  cbn [rbind].
  destruct (configure_all o) as [[]|e]; cbn [rbind]; [|intros H; injection H as <- <-; left; eauto].
  destruct (got_int files args Hw o (B "dump-mode") "d" 0 Hp ltac:(doc)) as (dump & -> & Vd).
  destruct (got_int files args Hw o (B "statsd-compliance") "s" 1 Hp ltac:(doc)) as (compliance & -> & Vc).
  cbn [rbind].
  destruct (choose_processor prefix inst node dump compliance log_info) as [info' rc] eqn:Ec.
  apply class_chosen in Ec. cbv zeta in Ec. intros H. injection H as <- <-.
  destruct Ec as [(Hd & Hi & ->)|(Hd & class & -> & Hc)]; [right; left; split; [reflexivity|]; exists dump; auto|].
  right. right. split; [reflexivity|]. split; [exists dump; auto|]. cbn [rbind].
  destruct (got_str files args Hw o (B "routing") "g" [] Hp ltac:(doc)) as (routing & -> & Vr). cbn [rbind].
  destruct (build_rules G true routing []) as [links [rules|e]] eqn:Er; cbn [rbind];
    [|left; exists routing, e; rewrite Er; auto]. right.
  destruct (got_strs files args Hw o (B "carbon-cache-host") "h" KHost ltac:(auto) Hp ltac:(doc)) as (hosts & -> & Vh). cbn [rbind]. rewrite rmap_strs.
  destruct (got_ports files args Hw o (B "carbon-cache-port") "p" Hp ltac:(doc)) as (ports & -> & Vpo). cbn [rbind]. rewrite rmap_ints.
  destruct (got_strs files args Hw o (B "carbon-cache-name") "n" KName ltac:(auto) Hp ltac:(doc)) as (names & -> & Vn). cbn [rbind]. rewrite rmap_strs.
  destruct (got_int files args Hw o (B "flush-interval") "i" 60000 Hp ltac:(doc)) as (interval & -> & Vf). cbn [rbind].
  destruct (got_str_or files args Hw o (B "report") "r" Hp ltac:(doc)) as (xr & report & -> & Vrep & Mrep). cbn [rbind].
  destruct (got_str files args Hw o (B "monitor-message") "m" (B "txstatsd ping") Hp ltac:(doc)) as (message & -> & Vm).
  destruct (got_str files args Hw o (B "monitor-response") "o" (B "txstatsd pong") Hp ltac:(doc)) as (response & -> & Vre).
  destruct (got_int files args Hw o (B "listen-port") "l" 8125 Hp ltac:(doc)) as (udp & -> & Vu).
  destruct (got_int_or files args Hw o (B "listen-tcp-port") "t" Hp ltac:(doc)) as (xt & tcp & -> & Vt & Mt).
  destruct (got_int_or files args Hw o (B "http-port") "P" Hp ltac:(doc)) as (xh & http & -> & Vht & Mht). cbn [rbind].
  destruct (match report with None => (0%nat, []) | Some text => let '(k, l) := asked_reports (report_names text) in (k, (RReactor, 60) :: l) end)
    as [inspectors asked] eqn:Ea.
  cbn [rbind]. eexists. split; [reflexivity|].
  constructor; cbn [a_queue a_batch a_class a_ext a_links a_rules a_instance a_reports a_inspectors a_dests a_flush a_mon a_udp a_tcp a_http m_message m_response]; eauto.
  - exists xi, inst. split; [exact Vi|]. split; [exact Mi|]. destruct inst as [[|c i]|]; reflexivity.
  - exists xp, prefix, dump, compliance. split; [exact Vp|]. split; [exact Mp|]. split; [exact Vd|]. split; [exact Vc|]. split; [exact Hc|].
    rewrite negb_involutive. apply Z.eqb_eq.
  - exists xr. split; [exact Vrep|]. apply scheduled_iff. unfold maybe_str in Mrep. destruct report as [text|].
    + right. exists text. split; [exact Mrep|]. destruct (asked_reports (report_names text)) as [k l]. injection Ea as <- <-. reflexivity.
    + left. injection Ea as <- <-. auto.
  - exists hosts, ports, names. split; [exact Vh|]. split; [exact Vpo|]. split; [exact Vn|]. cbv zeta. unfold destinations, or_default.
    destruct hosts, ports, names; reflexivity.
Qed.

End created.
Section unique.
Context (G : engine) (files : str -> list section) (args : list (flag * str)) (Hw : well_formed files) (node : str).
Lemma described_fun a a' : described G files args node a -> described G files args node a' -> a = a'.
Proof using Hw.
  intros D D'. pose proof (value_fun files args Hw) as VF.
  assert (Hmi : forall x y u v, x = y -> maybe_int x u -> maybe_int y v -> u = v).
  { unfold maybe_int. intros x y u v -> -> H. destruct u, v; congruence. }
  assert (Hms : forall x y u v, x = y -> maybe_str x u -> maybe_str y v -> u = v).
  { unfold maybe_str. intros x y u v -> -> H. destruct u, v; congruence. }
  destruct D as [q1 b1 u1 (t1 & t2 & t3) (h1 & h2 & h3) m1 r1 f1 (ro1 & ro2 & ro3) (i1 & i2 & i3 & i4 & i5) (c1 & c2 & c3 & c4 & c5 & c6 & c7 & c8 & c9) (p1 & p2 & p3) (d1 & d2 & d3 & d4 & d5 & d6 & d7)].
  destruct D' as [q1' b1' u1' (t1' & t2' & t3') (h1' & h2' & h3') m1' r1' f1' (ro1' & ro2' & ro3') (i1' & i2' & i3' & i4' & i5') (c1' & c2' & c3' & c4' & c5' & c6' & c7' & c8' & c9') (p1' & p2' & p3') (d1' & d2' & d3' & d4' & d5' & d6' & d7')].
  destruct a as [aq ab ac ae al ar ai arep ain ad af [am1 am2] au at_ ah], a' as [aq' ab' ac' ae' al' ar' ai' arep' ain' ad' af' [am1' am2'] au' at_' ah'].
  cbn [a_queue a_batch a_class a_ext a_links a_rules a_instance a_reports a_inspectors a_dests a_flush a_mon a_udp a_tcp a_http m_message m_response] in *.
  assert (Hlist : forall A (f : A -> oval) l l', (forall x y, f x = f y -> x = y) -> OL (map f l) = OL (map f l') -> l = l').
  { intros A f l l' Hf H. injection H as H. revert l' H. induction l as [|x l IH]; intros [|y l'] H; try discriminate; [reflexivity|].
    cbn in H. injection H as H1 H2. f_equal; auto. }
  pose proof (VF _ _ _ q1 q1') as E. injection E as <-. pose proof (VF _ _ _ b1 b1') as E. injection E as <-.
  pose proof (VF _ _ _ u1 u1') as E. injection E as <-. pose proof (VF _ _ _ m1 m1') as E. injection E as <-.
  pose proof (VF _ _ _ r1 r1') as E. injection E as <-. pose proof (VF _ _ _ f1 f1') as E. injection E as <-.
  pose proof (Hmi _ _ _ _ (VF _ _ _ t2 t2') t3 t3') as <-. pose proof (Hmi _ _ _ _ (VF _ _ _ h2 h2') h3 h3') as <-.
  pose proof (VF _ _ _ ro2 ro2') as E. injection E as <-. rewrite ro3 in ro3'. injection ro3' as <- <-.
  pose proof (Hms _ _ _ _ (VF _ _ _ i3 i3') i4 i4') as <-.
  assert (ai = ai') as <-. { unfold or_node in *. destruct i2 as [[|]|]; congruence. }
  pose proof (Hms _ _ _ _ (VF _ _ _ c5 c5') c6 c6') as <-.
  pose proof (VF _ _ _ c7 c7') as E. injection E as <-. pose proof (VF _ _ _ c8 c8') as E. injection E as <-.
  destruct c9 as [c9 c10], c9' as [c9' c10'].
  assert (ac = ac') as <-. { unfold class_of in *. destruct c9 as [(?&?&->)|[(?&?&->)|[(?&?&->)|(?&?&->)]]], c9' as [(?&?&->)|[(?&?&->)|[(?&?&->)|(?&?&->)]]]; congruence. }
  assert (ae = ae') as <-. { destruct ae, ae'; try reflexivity; destruct (Z.eq_dec c4 0) as [Hz|Hz]; try (symmetry; tauto); try tauto; exfalso; intuition congruence. }
  pose proof (VF _ _ _ p2 p2') as <-. apply scheduled_iff in p3, p3'.
  assert ((ain, arep) = (ain', arep')) as E.
  { destruct p3 as [(-> & -> & ->)|(text & -> & H)], p3' as [(E1 & -> & ->)|(text' & E1 & H')]; try discriminate; [reflexivity|]. injection E1 as <-. congruence. }
  injection E as <- <-.
  assert (d1 = d1') as <- by (eapply (Hlist _ OS); [congruence|exact (VF _ _ _ d4 d4')]).
  assert (d2 = d2') as <- by (eapply (Hlist _ OI); [congruence|exact (VF _ _ _ d5 d5')]).
  assert (d3 = d3') as <- by (eapply (Hlist _ OS); [congruence|exact (VF _ _ _ d6 d6')]).
  cbv zeta in d7, d7'. rewrite <- d7 in d7'. subst ad'. reflexivity.
Qed.
End unique.
Lemma start_iff G files args node a : described G files args node a -> (start G a = Ok tt <-> 0 <= a_flush _ a) /\ (forall e, start G a = Exn e -> e = ValueError).
Proof.
  intros D. destruct (ds_reports _ _ _ _ _ D) as (x & _ & Hs).
  assert (Hr : existsb (fun t => t <? 0) (map snd (a_reports _ a)) = (period_s (a_flush _ a) <? 0)).
  { destruct Hs as [|text names gs _ _]; cbn [map snd existsb]; [apply orb_false_r|]. change (60 <? 0) with false. cbn [orb].
    replace (existsb _ (map snd (map _ (concat gs)))) with false; [apply orb_false_r|].
    symmetry. induction (concat gs); [reflexivity|]. cbn. assumption. }
  unfold start, start_loops. rewrite Hr. cbn [existsb]. rewrite orb_false_r. unfold period_s.
  destruct (Z.ltb_spec (a_flush G a / 1000) 0) as [H|H]; cbn [rbind].
  - split; [|intros e E; congruence]. split; [discriminate|]. intros H0. pose proof (Z.div_pos (a_flush G a) 1000 H0 ltac:(lia)). lia.
  - split; [|intros e E; congruence]. split; [intros _|reflexivity]. destruct (Z.lt_ge_cases (a_flush G a) 0) as [Hn|Hn]; [|exact Hn].
    pose proof (Z.div_lt_upper_bound (a_flush G a) 1000 0 ltac:(lia) ltac:(lia)). lia.
Qed.
