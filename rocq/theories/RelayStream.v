(** Two daemons, the first redirecting to the second over TCP (Relay.v, Daemon.v). *)
From Verif Require Import Base StrFacts Num NumFacts Env Stats Glob Metrics Gen GenFacts Processor
  LineSpec LineFacts FloatFacts ProcFacts ProcSpec ReceiveFacts ReceiveFacts2 ReceiveFacts3 PlugFacts
  Sched FlushInv FlushOk SchedFacts
  Client ClientFacts Router RouterSpec RouterFacts RouterProps Server ServerSpec FrameFacts ServerFacts Daemon DaemonFacts
  Links LinkFacts Cluster ClusterFacts Relay RelaySpec RelayFacts RelayTcp RelayTier.
Open Scope Z_scope.

(** the bytes that arrive on connection [i], and the datagrams *)
Definition stream (i : nat) (es : list sevent) : str :=
  concat (flat_map (fun e => match e with SChunk j c => if decide (j = i) then [c] else [] | _ => [] end) es).
Definition datagrams (es : list sevent) : list str :=
  flat_map (fun e => match e with SDatagram _ d => [d] | _ => [] end) es.
(** the connections of a factory, the earlier ones first *)
Definition connections (f : tfactory) : list tproto := tf_old f ++ match tf_proto f with Some p => [p] | None => [] end.

(** ** What arrives: datagrams, and the lines of each stream *)
Definition more_lines (w v : str) : list str := done (rest w ++ v).
Lemma more_cut w c v : done (rest w ++ (c ++ v)) = done (rest w ++ c) ++ done (rest (w ++ c) ++ v).
Proof. rewrite (app_assoc (rest w)), done_app, <- rest_app. reflexivity. Qed.
Lemma stream_cons i e es : stream i (e :: es) = match e with SChunk j c => if decide (j = i) then c else [] | _ => [] end ++ stream i es.
Proof. unfold stream. cbn [flat_map]. rewrite concat_app. destruct e as [a d|j c|j]; try reflexivity. destruct (decide (j = i)); [cbn [concat]; rewrite app_nil_r|]; reflexivity. Qed.
Definition lines_at (k : nat) (ws : list (str * str)) (es : list sevent) : list str :=
  concat (imap (fun i x => done (rest (snd x) ++ stream (k + i) es)) ws).
Lemma lines_at_cons k x ws es : lines_at k (x :: ws) es = done (rest (snd x) ++ stream k es) ++ lines_at (S k) ws es.
Proof.
  unfold lines_at. rewrite imap_cons. cbn [concat]. rewrite Nat.add_0_r. f_equal. f_equal. apply imap_ext. intros i y _. cbn. do 3 f_equal. lia.
Qed.
Lemma lines_at_chunk es i addr w c : forall k ws, ws !! i = Some (addr, w) ->
  lines_at k ws (SChunk (k + i) c :: es) ≡ₚ done (rest w ++ c) ++ lines_at k (<[i := (addr, w ++ c)]> ws) es.
Proof.
  induction i as [|i IH]; intros k [|x ws] H; try discriminate; rewrite lines_at_cons, stream_cons.
  - injection H as ->. cbn [list_insert insert snd]. rewrite lines_at_cons. cbn [snd]. rewrite decide_True by lia. rewrite more_cut, <- app_assoc. do 2 apply Permutation_app_head.
    unfold lines_at. rewrite (imap_ext _ (fun i y => done (rest (snd y) ++ stream (S k + i) es))); [reflexivity|].
    intros j y _. cbn beta. rewrite stream_cons, decide_False by lia. reflexivity.
  - cbn in H. change (<[S i:=(addr, w ++ c)]> (x :: ws)) with (x :: <[i:=(addr, w ++ c)]> ws). rewrite lines_at_cons. rewrite decide_False by lia. cbn [app].
    replace (k + S i)%nat with (S k + i)%nat by lia. rewrite (IH (S k) ws H). rewrite !app_assoc. apply Permutation_app_tail. apply Permutation_app_comm.
Qed.
Lemma lines_at_skip k ws e es : match e with SChunk _ _ => False | _ => True end -> lines_at k ws (e :: es) = lines_at k ws es.
Proof. intros H. unfold lines_at. f_equal. apply imap_ext. intros i y _. rewrite stream_cons. destruct e; [reflexivity|contradiction|reflexivity]. Qed.
Lemma lines_at_end ws : forall k, lines_at k ws [] = [].
Proof.
  induction ws as [|x ws IH]; intros k; [reflexivity|]. rewrite lines_at_cons, IH, app_nil_r. change (stream k []) with (@nil ascii). rewrite app_nil_r.
  unfold done. rewrite cut_none by apply rest_none. reflexivity.
Qed.
Lemma arrived_lines max ws es out : arrivals max ws es out -> map snd out ≡ₚ datagrams es ++ lines_at 0 ws es.
Proof.
  induction 1 as [ws|ws addr data es out H IH|ws i addr w c ls r new r' es out Hi H1 H2 H3 H4 H IH|ws i es out H IH].
  - cbn [datagrams flat_map app map]. rewrite lines_at_end. reflexivity.
  - cbn [map snd datagrams flat_map app]. rewrite lines_at_skip by exact I. fold (datagrams es). rewrite IH. reflexivity.
  - rewrite map_app, map_map. cbn [snd]. rewrite map_id. rewrite (lines_at_chunk es i addr w c 0 ws Hi). rewrite IH.
    change (datagrams (SChunk i c :: es)) with (datagrams es). replace new with (done (rest w ++ c)).
    + rewrite !app_assoc. apply Permutation_app_tail, Permutation_app_comm.
    + apply lines_of_iff in H1 as [<- _], H2 as [E _]. rewrite done_app in E. apply app_inv_head in E. exact E.
  - rewrite lines_at_skip by exact I. exact IH.
Qed.
Lemma new_lines addrs es : lines_at 0 (map (fun a => (a, [])) addrs) es = concat (map (fun i => done (stream i es)) (seq 0 (length addrs))).
Proof.
  enough (A : forall k, lines_at k (map (fun a => (a, [])) addrs) es = concat (map (fun i => done (stream i es)) (seq k (length addrs)))) by apply A.
  induction addrs as [|a addrs IH]; intros k; [reflexivity|]. cbn [map length seq concat]. rewrite lines_at_cons, IH. reflexivity.
Qed.

(** ** What a connection carried, and what its other end reads *)
Lemma prefix_lines w ts : Forall (fun t => sendable t /\ ~ has_crlf t) ts -> w `prefix_of` concat (map on_wire ts) -> exists lost, ts = done w ++ lost.
Proof.
  intros Ht (v & E). change (concat (map on_wire ts)) with (wire_of ts) in E. assert (D : done (wire_of ts) = ts).
  { apply lines_iff. eapply Forall_impl; [exact Ht|]. intros t [[_ H1] H2]. split; [exact H2|exact H1]. }
  rewrite E, done_app in D. eexists. symmetry. exact D.
Qed.
Lemma whole_lines ts : Forall (fun t => sendable t /\ ~ has_crlf t) ts -> done (concat (map on_wire ts)) = ts.
Proof.
  intros Ht. change (concat (map on_wire ts)) with (wire_of ts). apply lines_iff. eapply Forall_impl; [exact Ht|]. intros t [[_ H1] H2]. split; [exact H2|exact H1].
Qed.
Lemma by_connection ps : forall kept, flat_map tp_wire ps = map on_wire kept ->
  exists kss, Forall2 (fun p ks => tp_wire p = map on_wire ks) ps kss /\ concat kss = kept.
Proof.
  induction ps as [|p ps IH]; intros kept E; cbn [flat_map] in E.
  - exists []. split; [constructor|]. destruct kept; [reflexivity|discriminate].
  - symmetry in E. apply map_eq_app in E as (k1 & k2 & -> & E1 & E2). destruct (IH k2 (eq_sym E2)) as (kss & H & <-).
    exists (k1 :: kss). split; [constructor; [symmetry; exact E1|exact H]|reflexivity].
Qed.
Definition reaches (es : list sevent) (p : tproto) (j : nat) : Prop := stream j es `prefix_of` concat (tp_wire p).
Definition reaches_all (es : list sevent) (p : tproto) (j : nat) : Prop := stream j es = concat (tp_wire p).
Lemma read_back es ps kss : Forall2 (fun p ks => tp_wire p = map on_wire ks) ps kss -> Forall (fun t => sendable t /\ ~ has_crlf t) (concat kss) ->
  forall js, Forall2 (reaches es) ps js ->
  exists lost, concat kss ≡ₚ concat (map (fun j => done (stream j es)) js) ++ lost /\ (Forall2 (reaches_all es) ps js -> lost = []).
Proof.
  induction 1 as [|p ks ps kss Hp H IH]; intros Ht js Hj; inversion Hj as [|? j ? js' Hr Hj']; subst; [exists []; split; [reflexivity|auto]|].
  cbn [concat] in Ht. apply Forall_app in Ht as [T1 T2]. destruct (IH T2 js' Hj') as (lost & P & Z).
  unfold reaches in Hr. rewrite Hp in Hr. destruct (prefix_lines _ _ T1 Hr) as (l1 & E1). exists (l1 ++ lost). split.
  - cbn [concat map]. rewrite P, E1. rewrite perm_count. intros x. rewrite !count_occ_app. lia.
  - intros Ha. apply Forall2_cons in Ha as [Ra Ha']. rewrite (Z Ha'), app_nil_r. unfold reaches_all in Ra. rewrite Hp in Ra.
    rewrite Ra, (whole_lines _ T1) in E1. apply (app_inv_head ks). rewrite app_nil_r. symmetry. exact E1.
Qed.
Definition others (n : nat) (js : list nat) : list nat := List.filter (fun k => bool_decide (k ∉ js)) (seq 0 n).
Lemma split_seq n js : NoDup js -> Forall (fun j => (j < n)%nat) js -> seq 0 n ≡ₚ js ++ others n js.
Proof.
  intros Hn Hj. apply NoDup_Permutation.
  - apply NoDup_ListNoDup, seq_NoDup.
  - apply NoDup_app. split; [exact Hn|]. split.
    + intros x Hx Hf. apply elem_of_list_In, filter_In in Hf as [_ Hf]. apply bool_decide_eq_true in Hf. contradiction.
    + apply NoDup_ListNoDup, List.NoDup_filter, seq_NoDup.
  - intros x. rewrite elem_of_app. unfold others. rewrite (elem_of_list_In (List.filter _ _)), filter_In, <- elem_of_list_In, bool_decide_eq_true, elem_of_seq.
    rewrite Forall_forall in Hj. destruct (decide (x ∈ js)) as [Hx|Hx]; [specialize (Hj x Hx); split; [auto|intros _; lia]|tauto].
Qed.
Lemma concat_perm {A} (f : nat -> list A) l k : l ≡ₚ k -> concat (map f l) ≡ₚ concat (map f k).
Proof. intros H. rewrite <- !flat_map_concat_map. apply Permutation_flat_map, H. Qed.

Lemma crlf_back m t k fs : typed_line m t k fs -> crlf_in k \/ Exists crlf_in fs -> crlf_in m.
Proof.
  intros Ht [Hk|Hf].
  - apply typed_line_decode in Ht as (raw & _ & <-). exfalso. destruct Hk as (u & v & E).
    pose proof (normalize_key_alphabet raw) as A. rewrite E in A. unfold all_in in A. assert (X : In c_cr name_chars).
    { apply A. apply in_or_app. right. left. reflexivity. }
    apply has_In in X. vm_compute in X. discriminate.
  - destruct Ht as (raw & ((l & r & -> & _) & _) & _). apply crlf_barred in Hf. destruct Hf as (u & v & ->).
    exists (l ++ raw ++ B ":" ++ u), (v ++ r). rewrite <- !app_assoc. reflexivity.
Qed.
Section tier.
Context `{NN : Num} {NL : NumLaw NN} {NX : NumExact NN} (G : engine).
Context (a b : site) (N : nat -> unet) (is_ip : str -> bool).
Context (config : str) (ls : list lspec) (rs : list (rule G)) (rws : list rule_text).
Context (Hb : build_rules G true config [] = (ls, Ok rs)) (Hr : rules_of config rws).
Notation front_ := (front G a N is_ip ls rs).
Definition lines_read (es : list sevent) (js : list nat) (lss : list (list str)) : Prop :=
  Forall2 (fun j l => exists r, lines_of (stream j es) l r) js lss.
Lemma lines_read_done es js : lines_read es js (map (fun j => done (stream j es)) js).
Proof. induction js as [|j js IH]; constructor; [|exact IH]. exists (rest (stream j es)). apply lines_of_iff. auto. Qed.

Theorem tcp_tier i h port addrs es f addrs' es' out js key :
  ls !! i = Some (true, h, port) -> d_links (front_ addrs es) !! i = Some (LTcp f) ->
  (forall m ts, In m (d_order (front_ addrs es)) -> forwards G rws i m ts -> Forall (fun t => ~ has_crlf t) ts) ->
  1000 <= s_interval b -> (forall x, ~ contribution key (m_message (s_mon b)) x) ->
  arrivals (s_max b) (map (fun a => (a, [])) addrs') (nets es') out ->
  NoDup js -> Forall (fun j => (j < length addrs')%nat) js -> Forall2 (reaches (nets es')) (connections f) js ->
  exists tss gss oss lost dropped x a_lost a_dropped a_sent a_other a_own,
    Forall2 (forwards G rws i) (d_order (front_ addrs es)) tss /\
    lines_read (nets es') js gss /\ lines_read (nets es') (others (length addrs') js) oss /\
    concat tss ≡ₚ concat gss ++ lost ++ dropped /\
    (Forall2 (reaches_all (nets es')) (connections f) js -> lost = []) /\
    (forall es1 es2, es = es1 ++ es2 -> d_order (front_ addrs es1) = [] -> is_open (happened i es1) ->
       (forall now, ~ In (KPause now) (happened i es2)) -> dropped = []) /\
    node_holds key (back G b addrs' es') x /\
    amount key lost a_lost /\ amount key dropped a_dropped /\ amount key (concat tss) a_sent /\
    amount key (datagrams (nets es') ++ concat oss) a_other /\ amount key (own es') a_own /\
    nadd x (nadd a_lost a_dropped) = nadd a_sent (nadd a_other a_own).
Proof using NL NX Hb Hr.
  intros Hi Hf Hc Hint Hmon Harr Hnd Hlt Hre.
  pose proof (tcp_forwarded G (process_message (s_env a) (mp_cls (s_env a) (s_plugins a))) (flush (s_env a) (mp_cls (s_env a) (s_plugins a)) (s_interval a) (s_percent a))
      (s_mon a) (s_max a) false (s_refuses a) N is_ip config ls rs rws Hb Hr i h port Hi addrs mp_init) as TF.
  destruct (TF [] es) as (f0 & f' & ms & tss & kept & A1 & A2 & A3 & A4 & A5 & A6 & A7 & _ & _).
  change (d_links (front_ addrs es) !! i = Some (LTcp f')) in A2. rewrite Hf in A2. injection A2 as <-.
  change (d_order (front_ addrs es) = ms) in A3. subst ms.
  assert (E0 : carried f0 = []).
  { change (frun G (process_message (s_env a) (mp_cls (s_env a) (s_plugins a))) (flush (s_env a) (mp_cls (s_env a) (s_plugins a)) (s_interval a) (s_percent a)) rs (s_mon a) (s_max a) false (s_refuses a) N
      (d_new addrs (map (new_link is_ip) ls) mp_init) []) with (d_new (NN := NN) addrs (map (new_link is_ip) ls) mp_init) in A1.
    rewrite (tcp_start is_ip ls i h port Hi addrs mp_init) in A1. injection A1 as <-. reflexivity. }
  rewrite E0 in A7. cbn [app] in A7.
  assert (Hcl : Forall (fun t => sendable t /\ ~ has_crlf t) kept).
  { assert (H : Forall (fun t => sendable t /\ ~ has_crlf t) (concat tss)).
    { apply Forall_and. split; [exact A5|]. clear -A4 Hc. revert Hc A4. generalize (d_order (front_ addrs es)). intros ms Hc H.
      induction H as [|m ts ms tss Hm _ IH]; [constructor|]. cbn. apply Forall_app. split; [eapply Hc; [left; reflexivity|exact Hm]|].
      apply IH. intros m' ts' Hin. apply Hc. right. exact Hin. }
    rewrite Forall_forall in H. apply Forall_forall. intros t Ht. apply H. eapply elem_of_submseteq; [exact Ht|apply sublist_submseteq, A6]. }
  destruct (by_connection (connections f) kept A7) as (kss & Hk & Ek). rewrite <- Ek in Hcl.
  destruct (read_back (nets es') _ _ Hk Hcl js Hre) as (lost & Pl & Zl). rewrite Ek in Pl.
  pose proof (sublist_submseteq _ _ A6) as U. apply submseteq_Permutation in U as (dropped & Pd).
  destruct (back_holds G b key addrs' es' out Hint Hmon Harr) as (x & Hx & Hax).
  apply arrived_lines in Harr. rewrite new_lines in Harr.
  rewrite (concat_perm _ _ _ (split_seq _ _ Hnd Hlt)) in Harr. rewrite map_app, concat_app in Harr.
  set (gss := map (fun j => done (stream j (nets es'))) js) in *. set (oss := map (fun j => done (stream j (nets es'))) (others (length addrs') js)) in *.
  destruct (amount_exists key lost) as (y1 & Y1). destruct (amount_exists key dropped) as (y2 & Y2). destruct (amount_exists key (concat tss)) as (y3 & Y3).
  destruct (amount_exists key (datagrams (nets es') ++ concat oss)) as (y4 & Y4). destruct (amount_exists key (own es')) as (y5 & Y5).
  exists tss, gss, oss, lost, dropped, x, y1, y2, y3, y4, y5. split; [exact A4|]. split; [apply lines_read_done|]. split; [apply lines_read_done|].
  split; [rewrite Pd, Pl, <- app_assoc; reflexivity|]. split; [exact Zl|]. split.
  { intros es1 es2 -> Hz Ho Hp. destruct (TF es1 es2) as (f1 & f2 & ms2 & tss2 & kept2 & B1 & B2 & B3 & B4 & B5 & B6 & B7 & B8 & _).
    change (d_links (front_ addrs (es1 ++ es2)) !! i = Some (LTcp f2)) in B2. rewrite Hf in B2. injection B2 as <-.
    change (d_order (front_ addrs (es1 ++ es2)) = d_order (front_ addrs es1) ++ ms2) in B3. rewrite Hz in B3. cbn [app] in B3. subst ms2.
    specialize (B8 Ho Hp). subst kept2.
    destruct (TF [] es1) as (f3 & f4 & ms4 & tss4 & kept4 & C1 & C2 & C3 & C4 & C5 & C6 & C7 & _).
    change (d_order (front_ addrs es1) = ms4) in C3. rewrite Hz in C3. subst ms4. inversion C4; subst tss4. cbn in C6. apply sublist_nil_r in C6. subst kept4.
    rewrite app_nil_l in C2. assert (f4 = f1) by congruence. subst f4. assert (f3 = f0) by congruence. subst f3. rewrite E0 in C7. cbn in C7. rewrite C7 in B7. cbn [app] in B7.
    rewrite A7 in B7. assert (L : length kept = length (concat tss2)) by (rewrite <- (map_length on_wire), B7, map_length; reflexivity).
    assert (T : tss2 = tss).
    { clear -B4 A4. revert tss2 B4. induction A4 as [|m ts ms tss Hm _ IH]; intros tss2 B; inversion B as [|? ts2 ? tss2' Hm2 B']; subst; [reflexivity|].
      f_equal; [|apply IH; assumption]. destruct Hm as (s1 & H1 & ->), Hm2 as (s2 & H2 & ->). rewrite (line_sends_fun G rws m s1 s2 H1 H2). reflexivity. }
    rewrite T in L. apply Permutation_length in Pd. rewrite app_length in Pd. destruct dropped; [reflexivity|cbn [length] in Pd; lia]. }
  repeat (split; [assumption|]).
  apply (amount_fun key ((map snd out ++ own es') ++ lost ++ dropped)); [repeat apply amount_app; assumption|].
  eapply amount_perm; [|repeat apply amount_app; eassumption]. clear -Pd Pl Harr. counted_lists Pd Pl Harr.
Qed.

(** the front has a rule that redirects everything, before all others *)
Lemma copied tcp h port post addrs es inA tss key y yp yi :
  rws = everything tcp h port :: post -> arrivals (s_max a) (map (fun a => (a, [])) addrs) (fnets es) inA ->
  (forall x, ~ contribution key (m_message (s_mon a)) x) -> Forall2 (forwards G rws 0) (d_order (front_ addrs es)) tss ->
  amount key (concat tss) y -> amount key (v_pending (d_srv (front_ addrs es))) yp -> amount key (map snd inA ++ fown es) yi -> nadd y yp = yi.
Proof using NL NX Hb Hr.
  intros Hw HinA HmA F1 F8 Yp Yi.
  assert (Hperm : d_order (front_ addrs es) ++ v_pending (d_srv (front_ addrs es)) ≡ₚ metrics_in (s_mon a) inA ++ fown es).
  { unfold front. cbv zeta.
    destruct (relay_drun G (process_message (s_env a) (mp_cls (s_env a) (s_plugins a))) (flush (s_env a) (mp_cls (s_env a) (s_plugins a)) (s_interval a) (s_percent a))
      rs (s_mon a) (s_max a) false (s_refuses a) N es (d_new addrs (map (new_link is_ip) ls) mp_init)) as (des & D1 & D2 & D3).
    rewrite D1. rewrite <- D2 in HinA. rewrite <- D3.
    exact (proj2 (daemon_network G _ _ rs (s_mon a) (s_max a) (s_refuses a) addrs (map (new_link is_ip) ls) mp_init des inA HinA)). }
  destruct (amount_exists key (d_order (front_ addrs es))) as (yo & Yo).
  assert (Hyo : y = yo).
  { apply (amount_fun key (concat tss)); [exact F8|]. rewrite Hw in F1. eapply everything_amount; eassumption. }
  destruct (amount_exists key (metrics_in (s_mon a) inA)) as (ym & Ym). destruct (amount_exists key (fown es)) as (yf & Yf).
  apply (amount_fun key (map snd inA ++ fown es)); [|exact Yi].
  assert (H1 : nadd yo yp = nadd ym yf).
  { apply (amount_fun key (d_order (front_ addrs es) ++ v_pending (d_srv (front_ addrs es)))); [apply amount_app; assumption|].
    eapply amount_perm; [symmetry; exact Hperm|apply amount_app; assumption]. }
  rewrite Hyo, H1. apply amount_app; [exact (monitor_amount key (s_mon a) inA ym HmA Ym)|exact Yf].
Qed.
Theorem tcp_copy h port post q addrs es f inA addrs' es' out js key :
  rws = everything true h port :: post -> ls !! 0%nat = Some (true, h, q) -> d_links (front_ addrs es) !! 0%nat = Some (LTcp f) ->
  arrivals (s_max a) (map (fun a => (a, [])) addrs) (fnets es) inA -> (forall m, In m (d_order (front_ addrs es)) -> ~ has_crlf m) ->
  1000 <= s_interval b -> (forall x, ~ contribution key (m_message (s_mon a)) x) -> (forall x, ~ contribution key (m_message (s_mon b)) x) ->
  arrivals (s_max b) (map (fun a => (a, [])) addrs') (nets es') out ->
  NoDup js -> Forall (fun j => (j < length addrs')%nat) js -> Forall2 (reaches (nets es')) (connections f) js ->
  exists oss lost dropped x a_lost a_dropped a_pending a_in a_other a_own,
    lines_read (nets es') (others (length addrs') js) oss /\
    (Forall2 (reaches_all (nets es')) (connections f) js -> lost = []) /\
    (forall es1 es2, es = es1 ++ es2 -> d_order (front_ addrs es1) = [] -> is_open (happened 0 es1) ->
       (forall now, ~ In (KPause now) (happened 0 es2)) -> dropped = []) /\
    node_holds key (back G b addrs' es') x /\
    amount key lost a_lost /\ amount key dropped a_dropped /\ amount key (v_pending (d_srv (front_ addrs es))) a_pending /\
    amount key (map snd inA ++ fown es) a_in /\
    amount key (datagrams (nets es') ++ concat oss) a_other /\ amount key (own es') a_own /\
    nadd x (nadd a_lost (nadd a_dropped a_pending)) = nadd a_in (nadd a_other a_own).
Proof using NL NX Hb Hr.
  intros Hw Hi Hf HinA Hc Hint HmA HmB Harr Hnd Hlt Hre.
  assert (Hc' : forall m ts, In m (d_order (front_ addrs es)) -> forwards G rws 0 m ts -> Forall (fun t => ~ has_crlf t) ts).
  { intros m ts Hin Hm. rewrite Hw in Hm. destruct (everything_forwards G _ _ _ _ _ _ Hm) as [(t & k & fs & Ht & ->)|[_ ->]]; [|constructor].
    constructor; [|constructor]. rewrite has_crlf_iff, crlf_text. intros H. apply (Hc m Hin). apply has_crlf_iff. eapply crlf_back; eassumption. }
  destruct (tcp_tier 0 h q addrs es f addrs' es' out js key Hi Hf Hc' Hint HmB Harr Hnd Hlt Hre)
    as (tss & gss & oss & lost & dropped & x & y1 & y2 & y3 & y4 & y5 & T1 & T2 & T3 & T4 & T5 & T6 & T7 & T8 & T9 & T10 & T11 & T12 & T13).
  destruct (amount_exists key (v_pending (d_srv (front_ addrs es)))) as (yp & Yp). destruct (amount_exists key (map snd inA ++ fown es)) as (yi & Yi).
  exists oss, lost, dropped, x, y1, y2, yp, yi, y4, y5. repeat (split; [assumption|]).
  rewrite <- (copied true h port post addrs es inA tss key y3 yp yi Hw HinA HmA T1 T10 Yp Yi).
  assert (E1 : nadd x (nadd y1 (nadd y2 yp)) = nadd (nadd x (nadd y1 y2)) yp) by (rewrite !nadd_assoc; reflexivity).
  rewrite E1, T13. rewrite <- !nadd_assoc. f_equal. rewrite (nadd_comm yp). rewrite <- !nadd_assoc. reflexivity.
Qed.
End tier.
