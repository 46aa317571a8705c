(** Two daemons, the first redirecting to the second (Relay.v, Daemon.v). *)
From Verif Require Import Base StrFacts Num NumFacts Env Stats Glob Metrics Gen GenFacts Processor
  LineSpec LineFacts FloatFacts ProcFacts ProcSpec ReceiveFacts ReceiveFacts2 ReceiveFacts3 PlugFacts
  Sched FlushInv FlushOk SchedFacts
  Client ClientFacts Router RouterSpec RouterFacts RouterProps Server ServerSpec FrameFacts ServerFacts Daemon DaemonFacts
  Links LinkFacts Cluster ClusterFacts Relay RelaySpec RelayFacts.
Open Scope Z_scope.

(** ** A rule that redirects everything, before all others *)
Section first.
Context (G : engine).
Definition everything (tcp : bool) (h port : str) : rule_text := ([B "any"], [if tcp then B "redirect_tcp" else B "redirect_udp"; h; port]).
Lemma everything_one tcp h port : is_redirect (everything tcp h port) = 1%nat.
Proof. destruct tcp; reflexivity. Qed.
Lemma stops_links rws : forall j ms sent, stops G j rws ms sent -> Forall (fun it => (j <= fst it)%nat) sent.
Proof.
  induction rws as [|r rws IH]; intros j ms sent H; inversion H; subst.
  - apply Forall_forall. intros it Hit. apply elem_of_list_fmap in Hit as (t & -> & _). cbn. lia.
  - apply Forall_app. split.
    + apply Forall_forall. intros it Hit. apply elem_of_list_fmap in Hit as (t & -> & _). cbn. lia.
    + eapply Forall_impl; [eapply IH; eassumption|]. cbn. intros it. lia.
Qed.
Lemma everything_all tcp h port m mid ts : applies_all G (everything tcp h port) [m] mid ts -> mid = [m] /\ ts = [text_of m].
Proof.
  intros Ha. inversion Ha as [|? ? o os t0 t1 Hap Hrest]; subst. inversion Hrest; subst. rewrite !app_nil_r.
  inversion Hap as [? ? ? Hm|? ? ? ? ? Hm He]; subst; [inversion Hm|]. unfold everything in *. destruct tcp; inversion He; subst; auto.
Qed.
Lemma everything_applies tcp h port m : applies G (everything tcp h port) m [m] [text_of m].
Proof. apply ap_hit; [constructor|]. destruct tcp; constructor. Qed.
Lemma everything_forwards tcp h port post m ts : forwards G (everything tcp h port :: post) 0 m ts ->
  (exists t k fs, typed_line m t k fs /\ ts = [text_of (t, k, fs)]) \/ ((forall t k fs, ~ typed_line m t k fs) /\ ts = []).
Proof.
  intros (sent & Hs & ->). rewrite <- texts_omap. destruct Hs as [Hn|t k fs out sent Ht Hro|t k fs sent Ht Hst].
  - right. auto.
  - left. exists t, k, fs. split; [exact Ht|]. inversion Hro as [|? ? ? ? mid ? ts' sent' Ha Hr]; subst.
    apply everything_all in Ha as [-> ->]. rewrite texts_to_app, texts_to_same, texts_to_none; [reflexivity|].
    eapply Forall_impl; [eapply routes_links, Hr|]. intros it. rewrite everything_one. lia.
  - left. exists t, k, fs. split; [exact Ht|]. inversion Hst as [? ? ? a m' b mid ts' Ha Hn E1 E2|? ? ? ? mid ts' sent' Ha Hr]; subst.
    + exfalso. apply Hn. exists [m'], [text_of m']. apply everything_applies.
    + apply everything_all in Ha as [-> ->]. rewrite texts_to_app, texts_to_same, texts_to_none; [reflexivity|].
      eapply Forall_impl; [eapply stops_links, Hr|]. intros it. rewrite everything_one. lia.
Qed.
(** the text of a line counts for what the line counts for *)
Context `{NN : Num} {NL : NumLaw NN} {NX : NumExact NN}.
Lemma text_contributes key m t k fs a : typed_line m t k fs -> (contribution key (text_of (t, k, fs)) a <-> contribution key m a).
Proof using Type.
  intros Ht.
  assert (Ht2 : typed_line (text_of (t, k, fs)) t k fs).
  { eapply type_restored; [exact Ht|]. apply typed_line_decode in Ht as (raw & _ & <-). apply normalize_key_alphabet. }
  assert (Hsame : forall t1 k1 fs1, typed_line (text_of (t, k, fs)) t1 k1 fs1 <-> typed_line m t1 k1 fs1).
  { intros t1 k1 fs1. split; intros H; [destruct (typed_line_fun _ _ _ _ _ _ _ H Ht2) as (-> & -> & ->)|
      destruct (typed_line_fun _ _ _ _ _ _ _ H Ht) as (-> & -> & ->)]; assumption. }
  unfold contribution. split; intros (v & r & Hc & ->); exists v, r; (split; [|reflexivity]);
    destruct Hc; econstructor; try (apply Hsame; eassumption); eassumption.
Qed.
Lemma everything_amount tcp h port post key ms tss x : Forall2 (forwards G (everything tcp h port :: post) 0) ms tss ->
  amount key ms x -> amount key (concat tss) x.
Proof using NL NX.
  intros Hf (l & Hl & ->). exists l. split; [|reflexivity]. revert l Hl. induction Hf as [|m ts ms tss Hm _ IH]; intros l Hl; [inversion Hl; constructor|].
  cbn [concat]. destruct (everything_forwards _ _ _ _ _ _ Hm) as [(t & k & fs & Ht & ->)|[Hn ->]]; cbn [app].
  - inversion Hl as [|? a ? l' Ha Hl'|? ? ? Ha Hl']; subst.
    + constructor; [apply (text_contributes key m); [exact Ht|exact Ha]|apply IH, Hl'].
    + constructor 3; [|apply IH, Hl']. intros a Hx. apply (Ha a), (text_contributes key m t k fs); assumption.
  - inversion Hl as [|? a ? l' Ha Hl'|? ? ? Ha Hl']; subst; [|apply IH, Hl'].
    exfalso. destruct Ha as (v & r & Hc & _). destruct Hc; eapply Hn; eassumption.
Qed.
End first.

(** permutations of concatenations, by counting *)
Definition str_dec (x y : str) : {x = y} + {x <> y} := decide (x = y).
Lemma perm_count (l k : list str) : l ≡ₚ k <-> forall x, count_occ str_dec l x = count_occ str_dec k x.
Proof. apply Permutation_count_occ. Qed.
Ltac counted_lists H1 H2 H3 :=
  rewrite perm_count in H1, H2, H3 |- *; let x := fresh in intros x; specialize (H1 x); specialize (H2 x); specialize (H3 x);
  rewrite ?count_occ_app in *; lia.
Section tier.
Context `{NN : Num} {NL : NumLaw NN} {NX : NumExact NN} (G : engine).
Lemma monitor_amount key (cfg : mon) (out : list (str * str)) x : (forall a, ~ contribution key (m_message cfg) a) ->
  amount key (metrics_in cfg out) x -> amount key (map snd out) x.
Proof using NL NX.
  intros Hm Ha. set (p := fun m => negb (str_eqb m (m_message cfg))).
  apply (amount_drop key p).
  { intros m a Hp. subst p. cbn beta in Hp. apply negb_false_iff, str_eqb_eq in Hp. subst m. apply Hm. }
  unfold metrics_in in Ha. replace (List.filter p (map snd out)) with (map snd (List.filter (fun x => p (snd x)) out)); [exact Ha|].
  clear Ha. induction out as [|y out IH]; [reflexivity|]. cbn [List.filter map]. destruct (p (snd y)); cbn [map]; rewrite IH; reflexivity.
Qed.
(** a daemon without rules holds what reached it *)
Lemma back_holds (s : site) key addrs es out : 1000 <= s_interval s -> (forall a, ~ contribution key (m_message (s_mon s)) a) ->
  arrivals (s_max s) (map (fun a => (a, [])) addrs) (nets es) out ->
  let C := mp_cls (s_env s) (s_plugins s) in
  let d := drun G (process_message (s_env s) C) (flush (s_env s) C (s_interval s) (s_percent s)) [] (s_mon s) (s_max s) false (s_refuses s) (d_new addrs [] mp_init) es in
  exists x, node_holds key d x /\ amount key (map snd out ++ own es) x.
Proof using NL NX.
  intros Hi Hm Ha C d.
  destruct (daemon_arrived (s_env s) (s_plugins s) G (s_interval s) (s_percent s) (s_mon s) (s_max s)
    (s_refuses s) [] [] [] [] [] (no_rules_built G) no_rules_text eq_refl Hi addrs es out key Ha) as (w & a & Hw & Hac & He).
  { apply Forall_forall. intros m _ t k fs _. constructor. }
  exists (nsum a). split.
  - exists (nsum w). split; [exists w; split; [exact Hw|reflexivity]|]. symmetry. exact He.
  - destruct (amount_exists key (metrics_in (s_mon s) out)) as (x & Hx). destruct (amount_exists key (own es)) as (y & Hy).
    assert (Hxy : amount key (metrics_in (s_mon s) out ++ own es) (nadd x y)) by (apply amount_app; assumption).
    assert (Has : amount key (metrics_in (s_mon s) out ++ own es) (nsum a)) by (exists a; auto).
    rewrite (amount_fun key _ _ _ Has Hxy). apply amount_app; [eapply monitor_amount; eassumption|exact Hy].
Qed.

(** the daemon that redirects is a daemon *)
Definition fnets (es : list fevent) : list sevent := flat_map (fun e => match e with FNet e => [e] | _ => [] end) es.
Definition fown (es : list fevent) : list str := flat_map (fun e => match e with FOwn m => [m] | _ => [] end) es.
Lemma relay_drun {S} inner (fl : gen S) rs cfg max closes refuses N es : forall d,
  exists des, frun G inner fl rs cfg max closes refuses N d es = drun G inner fl rs cfg max closes refuses d des /\
    nets des = fnets es /\ own des = fown es.
Proof using Type.
  induction es as [|e es IH]; intros d; [exists []; auto|]. cbn [frun fold_left].
  destruct (IH (fstep G inner fl rs cfg max closes refuses N d e)) as (des & H1 & H2 & H3).
  exists (fdevent N d e ++ des). split; [unfold frun in H1; rewrite H1; unfold fstep, drun; rewrite fold_left_app; reflexivity|].
  unfold nets, own, fnets, fown in *. rewrite !flat_map_app, H2, H3.
  destruct e as [e|m| |i|j e]; cbn [fdevent flat_map app]; [auto..|]. destruct (d_links d !! j); auto.
Qed.

(** [a]: the daemon that redirects, [b]: the one behind redirect [i] *)
Context (a b : site) (N : nat -> unet) (is_ip : str -> bool).
Context (config : str) (ls : list lspec) (rs : list (rule G)) (rws : list rule_text).
Context (Hb : build_rules G true config [] = (ls, Ok rs)) (Hr : rules_of config rws).
Definition front (addrs : list str) (es : list fevent) : @daemon NN mst :=
  let C := mp_cls (s_env a) (s_plugins a) in
  frun G (process_message (s_env a) C) (flush (s_env a) C (s_interval a) (s_percent a)) rs (s_mon a) (s_max a) false (s_refuses a) N
    (d_new addrs (map (new_link is_ip) ls) mp_init) es.
Definition back (addrs : list str) (es : list devent) : @daemon NN mst :=
  let C := mp_cls (s_env b) (s_plugins b) in
  drun G (process_message (s_env b) C) (flush (s_env b) C (s_interval b) (s_percent b)) [] (s_mon b) (s_max b) false (s_refuses b)
    (d_new addrs [] mp_init) es.
(** the texts which the client of a redirect has passed to its transport, and those it holds *)
Definition passed_on (u : uclient) : list str := map (fun x => fst (snd x)) (u_sent u).
Definition held (u : uclient) : list str := map (fun x => fst (snd x)) (u_sched u) ++ map fst (u_queue u).
Lemma items_split u : map fst (all_items u) = passed_on u ++ held u.
Proof using Type. unfold all_items, passed_on, held. rewrite !map_app, !map_map. reflexivity. Qed.

Theorem tier i h port addrs es u addrs' es' out got other lost extra key :
  ls !! i = Some (false, h, port) -> d_links (front addrs es) !! i = Some (LUdp u) ->
  1000 <= s_interval b -> (forall x, ~ contribution key (m_message (s_mon b)) x) ->
  arrivals (s_max b) (map (fun a => (a, [])) addrs') (nets es') out ->
  map snd out ≡ₚ got ++ other -> got ++ lost ≡ₚ passed_on u ++ extra ->
  exists tss dropped x a_lost a_held a_dropped a_sent a_extra a_other a_own,
    Forall2 (forwards G rws i) (d_order (front addrs es)) tss /\
    concat tss ≡ₚ passed_on u ++ held u ++ dropped /\ ((length (concat tss) <= 1000)%nat -> dropped = []) /\
    node_holds key (back addrs' es') x /\
    amount key lost a_lost /\ amount key (held u) a_held /\ amount key dropped a_dropped /\
    amount key (concat tss) a_sent /\ amount key extra a_extra /\ amount key other a_other /\ amount key (own es') a_own /\
    nadd x (nadd a_lost (nadd a_held a_dropped)) = nadd a_sent (nadd a_extra (nadd a_other a_own)).
Proof using NL NX Hb Hr.
  intros Hi Hu Hint Hmon Harr Hout Hnet.
  assert (Hfw : exists u' tss, d_links (front addrs es) !! i = Some (LUdp u') /\ Forall2 (forwards G rws i) (d_order (front addrs es)) tss /\
    sublist (map fst (all_items u')) (concat tss) /\ ((length (concat tss) <= 1000)%nat -> map fst (all_items u') = concat tss) /\ True).
  { destruct (udp_forwarded G (process_message (s_env a) (mp_cls (s_env a) (s_plugins a))) (flush (s_env a) (mp_cls (s_env a) (s_plugins a)) (s_interval a) (s_percent a))
      (s_mon a) (s_max a) false (s_refuses a) N is_ip config ls rs rws Hb Hr i h port Hi addrs mp_init es) as (u' & tss & U1 & U2 & U3 & U4 & _).
    exists u', tss. split; [exact U1|]. split; [exact U2|]. auto. }
  destruct Hfw as (u' & tss & U1 & U2 & U3 & U4 & _). rewrite Hu in U1. injection U1 as <-.
  assert (Hd : exists dropped, concat tss ≡ₚ map fst (all_items u) ++ dropped /\ ((length (concat tss) <= 1000)%nat -> dropped = [])).
  { apply sublist_submseteq in U3; apply submseteq_Permutation in U3 as (dropped & Hp); exists dropped; split; [exact Hp|];
      intros Hl; specialize (U4 Hl); rewrite U4 in Hp; apply Permutation_length in Hp; rewrite app_length in Hp; destruct dropped; [reflexivity|cbn in Hp; lia]. }
  destruct Hd as (dropped & Hp & Hz). rewrite items_split in Hp. rewrite <- app_assoc in Hp.
  destruct (back_holds b key addrs' es' out Hint Hmon Harr) as (x & Hx & Hax).
  destruct (amount_exists key lost) as (y1 & Y1). destruct (amount_exists key (held u)) as (y2 & Y2).
  destruct (amount_exists key dropped) as (y3 & Y3). destruct (amount_exists key (concat tss)) as (y4 & Y4).
  destruct (amount_exists key extra) as (y5 & Y5). destruct (amount_exists key other) as (y6 & Y6).
  destruct (amount_exists key (own es')) as (y7 & Y7).
  exists tss, dropped, x, y1, y2, y3, y4, y5, y6, y7. repeat (split; [assumption|]).
  apply (amount_fun key ((map snd out ++ own es') ++ lost ++ held u ++ dropped)); [repeat apply amount_app; assumption|].
  eapply amount_perm; [|repeat apply amount_app; eassumption]. clear -Hp Hout Hnet. counted_lists Hp Hout Hnet.
Qed.

(** the front has a rule that redirects everything, before all others *)
Theorem tier_copy h port post p addrs es u inA addrs' es' out got other lost extra key :
  rws = everything false h port :: post -> ls !! 0%nat = Some (false, h, p) ->
  arrivals (s_max a) (map (fun a => (a, [])) addrs) (fnets es) inA -> d_links (front addrs es) !! 0%nat = Some (LUdp u) ->
  1000 <= s_interval b -> (forall x, ~ contribution key (m_message (s_mon a)) x) -> (forall x, ~ contribution key (m_message (s_mon b)) x) ->
  arrivals (s_max b) (map (fun a => (a, [])) addrs') (nets es') out ->
  map snd out ≡ₚ got ++ other -> got ++ lost ≡ₚ passed_on u ++ extra ->
  exists dropped x a_lost a_held a_dropped a_pending a_in a_extra a_other a_own,
    ((length (d_order (front addrs es)) <= 1000)%nat -> dropped = []) /\ node_holds key (back addrs' es') x /\
    amount key lost a_lost /\ amount key (held u) a_held /\ amount key dropped a_dropped /\
    amount key (v_pending (d_srv (front addrs es))) a_pending /\
    amount key (map snd inA ++ fown es) a_in /\ amount key extra a_extra /\ amount key other a_other /\ amount key (own es') a_own /\
    nadd x (nadd a_lost (nadd a_held (nadd a_dropped a_pending))) = nadd a_in (nadd a_extra (nadd a_other a_own)).
Proof using NL NX Hb Hr.
  intros Hw Hi HinA Hu Hint HmA HmB Harr Hout Hnet.
  destruct (tier 0%nat h p addrs es u addrs' es' out got other lost extra key Hi Hu Hint HmB Harr Hout Hnet)
    as (tss & dropped & x & y1 & y2 & y3 & y4 & y5 & y6 & y7 & F1 & F2 & F3 & F4 & F5 & F6 & F7 & F8 & F9 & F10 & F11 & F12).
  assert (Hperm : d_order (front addrs es) ++ v_pending (d_srv (front addrs es)) ≡ₚ metrics_in (s_mon a) inA ++ fown es).
  { unfold front. cbv zeta.
    destruct (relay_drun (process_message (s_env a) (mp_cls (s_env a) (s_plugins a))) (flush (s_env a) (mp_cls (s_env a) (s_plugins a)) (s_interval a) (s_percent a))
      rs (s_mon a) (s_max a) false (s_refuses a) N es (d_new addrs (map (new_link is_ip) ls) mp_init)) as (des & D1 & D2 & D3).
    rewrite D1. rewrite <- D2 in HinA. rewrite <- D3.
    exact (proj2 (daemon_network G _ _ rs (s_mon a) (s_max a) (s_refuses a) addrs (map (new_link is_ip) ls) mp_init des inA HinA)). }
  destruct (amount_exists key (v_pending (d_srv (front addrs es)))) as (yp & Yp). destruct (amount_exists key (map snd inA ++ fown es)) as (yi & Yi).
  exists dropped, x, y1, y2, y3, yp, yi, y5, y6, y7. split.
  { intros Hl. apply F3. clear -F1 Hl Hw. rewrite Hw in F1. etransitivity; [|exact Hl]. induction F1 as [|m ts ms tss Hm _ IH]; [cbn; lia|].
    cbn [concat length] in *. rewrite app_length. destruct (everything_forwards G _ _ _ _ _ _ Hm) as [(? & ? & ? & _ & ->)|[_ ->]]; cbn [length];
      specialize (IH ltac:(lia)); lia. }
  repeat (split; [assumption|]).
  destruct (amount_exists key (d_order (front addrs es))) as (yo & Yo).
  assert (Hyo : y4 = yo).
  { apply (amount_fun key (concat tss)); [exact F8|]. rewrite Hw in F1. eapply everything_amount; eassumption. }
  assert (Hyi : nadd yo yp = yi).
  { destruct (amount_exists key (metrics_in (s_mon a) inA)) as (ym & Ym). destruct (amount_exists key (fown es)) as (yf & Yf).
    apply (amount_fun key (map snd inA ++ fown es)); [|exact Yi].
    assert (H1 : nadd yo yp = nadd ym yf).
    { apply (amount_fun key (d_order (front addrs es) ++ v_pending (d_srv (front addrs es)))); [apply amount_app; assumption|].
      eapply amount_perm; [symmetry; exact Hperm|apply amount_app; assumption]. }
    rewrite H1. apply amount_app; [exact (monitor_amount key (s_mon a) inA ym HmA Ym)|exact Yf]. }
  rewrite <- Hyi, <- Hyo.
  assert (E1 : nadd x (nadd y1 (nadd y2 (nadd y3 yp))) = nadd (nadd x (nadd y1 (nadd y2 y3))) yp) by (rewrite !nadd_assoc; reflexivity).
  rewrite E1, F12. rewrite <- !nadd_assoc. f_equal. rewrite (nadd_comm yp). rewrite <- !nadd_assoc. reflexivity.
Qed.
End tier.
