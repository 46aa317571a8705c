(** Applications reporting to a daemon. *)
From Verif Require Import Base StrFacts Num NumFacts Env Stats Glob Metrics Gen GenFacts Processor
  LineSpec LineFacts FloatFacts ProcFacts ProcSpec ReceiveFacts ReceiveFacts2 ReceiveFacts3
  ClientMetrics ClientMetricsSpec ClientMetricsFacts ClientMetricsFun ClientServer ClientTotals
  Sched SchedFacts XQFacts TimerSched TimerDaemon TimerDouble
  Client ClientFacts Router RouterSpec RouterFacts Server ServerSpec ServerFacts Daemon DaemonFacts Cluster ClusterFacts
  RelayTier App.
From stdpp Require Import list.
Open Scope Z_scope.

Section client.
Context `{NA : Num} (a : application).
Definition api_calls (h : list aevent) : list call := flat_map (fun e => match e with ACall c => [c] | _ => [] end) h.
(** what the calls of a history wrote *)
Definition said (h : list aevent) : list str := cl_out (calls (ap_env a) (ap_met a) (api_calls h) cl_init).
Definition uevs (h : list aevent) (evs : list uevent) : Prop :=
  snd (arun a h) = urun (ap_net a) (ap_cfg a) evs (fst (uc_create (ap_cfg a) (ap_is_ip a) (ap_host a) uc_init)) /\
  writes evs = map (fun m => (m, None)) (said h).
Lemma api_snoc h e : api_calls (h ++ [e]) = api_calls h ++ match e with ACall c => [c] | _ => [] end.
Proof. unfold api_calls. rewrite flat_map_app. cbn. rewrite app_nil_r. reflexivity. Qed.
Lemma said_snoc h c : said (h ++ [ACall c]) = said h ++ fst (outcome (ap_env a) (ap_met a) (api_calls h) c).
Proof. unfold said. rewrite api_snoc. apply calls_out. Qed.
Lemma arun_snoc h e : arun a (h ++ [e]) = astep a (arun a h) e.
Proof. unfold arun. rewrite fold_left_app. reflexivity. Qed.
Lemma arun_metrics h : fst (arun a h) = calls (ap_env a) (ap_met a) (api_calls h) cl_init.
Proof.
  induction h as [|e h IH] using rev_ind; [reflexivity|]. rewrite arun_snoc, api_snoc. unfold calls. rewrite fold_left_app.
  fold (calls (ap_env a) (ap_met a) (api_calls h) cl_init). rewrite <- IH. destruct e; reflexivity.
Qed.
Lemma urun_writes N cfg ms u : fold_left (fun u m => uc_write cfg (m, None) u) ms u = urun N cfg (map (fun m => EWrite (m, None)) ms) u.
Proof. revert u. induction ms as [|m ms IH]; intros u; [reflexivity|]. cbn [fold_left map]. rewrite IH. reflexivity. Qed.
Lemma app_writes h e : exists evs, snd (arun a (h ++ [e])) = urun (ap_net a) (ap_cfg a) evs (snd (arun a h)) /\
  writes evs = map (fun m => (m, None)) (match e with ACall c => fst (outcome (ap_env a) (ap_met a) (api_calls h) c) | _ => [] end) /\
  (forall c, e = ACall c -> evs = map (fun m => EWrite (m, None)) (fst (outcome (ap_env a) (ap_met a) (api_calls h) c))).
Proof.
  rewrite arun_snoc. destruct e as [c|ip|t| |]; cbn [astep snd].
  - exists (map (fun m => EWrite (m, None)) (fst (outcome (ap_env a) (ap_met a) (api_calls h) c))).
    rewrite (urun_writes (ap_net a)). unfold outcome. cbn [fst]. rewrite arun_metrics. split; [reflexivity|]. split.
    + induction (skipn _ _) as [|m ms IH]; [reflexivity|]. cbn [map writes flat_map app]. f_equal. exact IH.
    + intros c' [= <-]. reflexivity.
  - exists [EResolved ip]. split; [reflexivity|]. split; [reflexivity|]. discriminate.
  - exists [EConnect (Some t)]. split; [reflexivity|]. split; [reflexivity|]. discriminate.
  - exists [EDisconnect]. split; [reflexivity|]. split; [reflexivity|]. discriminate.
  - exists [ETurn]. split; [reflexivity|]. split; [reflexivity|]. discriminate.
Qed.
Lemma said_other h e : (forall c, e <> ACall c) -> said (h ++ [e]) = said h.
Proof. intros H. unfold said. rewrite api_snoc. destruct e; rewrite ?app_nil_r; try reflexivity. exfalso. eapply H. reflexivity. Qed.
Lemma app_uevs h : exists evs, uevs h evs.
Proof.
  induction h as [|e h (evs & H1 & H2)] using rev_ind; [exists []; split; reflexivity|].
  destruct (app_writes h e) as (evs' & E1 & E2 & _). exists (evs ++ evs'). split.
  - rewrite E1, H1. unfold urun. rewrite fold_left_app. reflexivity.
  - unfold writes in *. rewrite flat_map_app, H2, E2, <- map_app. f_equal. destruct e; [symmetry; apply said_snoc|..];
      rewrite app_nil_r; symmetry; apply said_other; discriminate.
Qed.
(** a call writes one text at most *)
Lemma one_text h c : (length (fst (outcome (ap_env a) (ap_met a) h c)) <= 1)%nat.
Proof.
  destruct (outcome (ap_env a) (ap_met a) h c) as [out e] eqn:Ho. apply outcome_iff in Ho. cbn [fst].
  assert (Hr : forall m o r, reaches (ap_met a) m o r -> (length o <= 1)%nat) by (intros m o r H; destruct H; cbn; lia).
  assert (Ht : forall q r x data o e', transmits (ap_env a) (ap_met a) q r x data o e' -> (length o <= 1)%nat).
  { intros q r x data o e' H. destruct H as [o e' _ H|o e' _ _ H|]; [exact (Hr _ _ _ H)|exact (Hr _ _ _ H)|cbn; lia]. }
  destruct Ho as [|? ? ? ?|? ? ? ? ? ? ? ?|? ? ? ? ? ? ? ? ? ? H]; cbn [length]; [lia..|]. exact (Ht _ _ _ _ _ _ H).
Qed.

(** at no call was the queue of the client full *)
Definition roomy (h : list aevent) : Prop := forall h1 c h2, h = h1 ++ ACall c :: h2 ->
  (length (u_queue (snd (arun a h1))) < uc_limit (ap_cfg a))%nat.
Context (Q : quiet (ap_cfg a)).
Lemma app_sublist h : sublist (map fst (all_items (snd (arun a h)))) (said h).
Proof using Q.
  destruct (app_uevs h) as (evs & H1 & H2). destruct (items_in_order (ap_net a) (ap_cfg a) Q (ap_is_ip a) (ap_host a) evs) as [I1 _].
  rewrite <- H1, H2 in I1. assert (said h = map fst (map (fun m : str => (m, @None nat)) (said h))) as ->.
  { rewrite map_map. cbn. symmetry. apply map_id. }
  assert (G : forall l k : list item, sublist l k -> sublist (map fst l) (map fst k)) by (induction 1; cbn [map]; constructor; assumption).
  apply G, I1.
Qed.
Lemma app_roomy h : roomy h -> map fst (all_items (snd (arun a h))) = said h.
Proof using Q.
  induction h as [|e h IH] using rev_ind; intros Hr.
  - pose proof (app_sublist []) as H. apply sublist_nil_r in H. exact H.
  - assert (Hh : map fst (all_items (snd (arun a h))) = said h).
    { apply IH. intros h1 c h2 ->. apply (Hr h1 c (h2 ++ [e])). rewrite <- app_assoc. reflexivity. }
    destruct (app_uevs h) as (evs & H1 & _). destruct (app_writes h e) as (evs' & E1 & E2 & E3).
    destruct e as [c|ip|t| |].
    2-5: rewrite said_other by discriminate; rewrite <- Hh; rewrite arun_snoc; cbn [astep snd]; rewrite H1;
      match goal with |- context [ustep _ _ ?x] => pose proof (step_items (ap_net a) (ap_cfg a) Q (ap_is_ip a) (ap_host a) evs x) as Hs end;
      cbv zeta in Hs; unfold urun in Hs at 1; rewrite fold_left_app in Hs; cbn [fold_left] in Hs; unfold urun; rewrite Hs, app_nil_r; reflexivity.
    rewrite said_snoc. pose proof (one_text (api_calls h) c) as Ho. rewrite E1, (E3 c eq_refl).
    destruct (fst (outcome (ap_env a) (ap_met a) (api_calls h) c)) as [|m [|]]; [cbn; rewrite app_nil_r; exact Hh| |cbn in Ho; lia].
    cbn [map]. pose proof (step_items (ap_net a) (ap_cfg a) Q (ap_is_ip a) (ap_host a) evs (EWrite (m, None))) as Hs. cbv zeta in Hs.
    rewrite <- H1 in Hs. rewrite decide_True in Hs by (left; apply (Hr h c []); reflexivity).
    rewrite H1. unfold urun in *. rewrite <- fold_left_app, Hs, map_app, <- Hh. reflexivity.
Qed.
Lemma queue_bound h : (length (u_queue (snd (arun a h))) <= length (api_calls h))%nat.
Proof using Q.
  assert (Hs : (length (said h) <= length (api_calls h))%nat).
  { induction h as [|e h IH] using rev_ind; [cbn; lia|]. destruct e as [c|ip|t| |].
    2-5: rewrite said_other by discriminate; rewrite api_snoc, app_length; lia.
    rewrite said_snoc, api_snoc, !app_length. pose proof (one_text (api_calls h) c). cbn [length]. lia. }
  pose proof (sublist_length _ _ (app_sublist h)) as Hl. rewrite map_length in Hl. unfold all_items in Hl. rewrite !app_length in Hl. lia.
Qed.
Lemma few_roomy h : (length (api_calls h) <= uc_limit (ap_cfg a))%nat -> roomy h.
Proof using Q.
  intros Hl h1 c h2 ->. pose proof (queue_bound h1). unfold api_calls in *. rewrite flat_map_app, app_length in Hl. cbn in Hl. lia.
Qed.
Lemma app_accounts h : exists dropped, said h ≡ₚ passed_on (snd (arun a h)) ++ held (snd (arun a h)) ++ dropped /\ (roomy h -> dropped = []).
Proof using Q.
  pose proof (app_sublist h) as H. apply sublist_submseteq in H. apply submseteq_Permutation in H as (dropped & Hp).
  exists dropped. split.
  - rewrite app_assoc, <- items_split. exact Hp.
  - intros Hr. rewrite (app_roomy h Hr) in Hp. apply Permutation_length in Hp. rewrite app_length in Hp. destruct dropped; [reflexivity|cbn in Hp; lia].
Qed.
End client.

(** ** Calls that count and time with integers *)
(** increment, decrement and timing, unsampled, under a clean name: the name, whether it is a
    duration, and the value *)
Section tells.
Context `{NA : Num} (P : mconf).
Inductive tells : call -> str * bool * Z -> Prop :=
| tl_inc n q z : qualified (m_ns P) n q -> clean_name q -> tells (CIncrement n (VInt z) (VInt 1)) (q, false, z)
| tl_dec n q z : qualified (m_ns P) n q -> clean_name q -> tells (CDecrement n (VInt z) (VInt 1)) (q, false, - z)
| tl_time n q z : qualified (m_ns P) n q -> clean_name q -> tells (CTiming n (Some (VInt z)) (VInt 1)) (q, true, z * 1000).
Definition tell_line (x : str * bool * Z) : str := fst (fst x) ++ B ":" ++ show_Z (snd x) ++ (if snd (fst x) then B "|ms" else B "|c").
Lemma tells_about c q t z : tells c (q, t, z) -> about P c q.
Proof. intros H. inversion H; subst; eexists; (split; [constructor|eassumption]). Qed.
Lemma tells_opens c x : tells c x -> m_ext P = false -> opens P c KPlain (VInt 1).
Proof.
  intros H Hx. destruct H.
  - replace KPlain with (if m_ext P then KCounter else KPlain) by (rewrite Hx; auto). constructor.
  - replace KPlain with (if m_ext P then KCounter else KPlain) by (rewrite Hx; auto). constructor.
  - replace KPlain with (if m_ext P then KTimer else KPlain) by (rewrite Hx; auto). constructor.
Qed.
Lemma tells_clean c q t z : tells c (q, t, z) -> clean_name q.
Proof. intros H. inversion H; subst; assumption. Qed.
Lemma tells_lines E h l : m_ext P = false -> m_conn P = true -> Forall2 tells h l ->
  cl_out (calls E P h cl_init) = map tell_line l.
Proof.
  intros Hx Hc. revert l. induction h as [|c h IH] using rev_ind; intros l Hl; [inversion Hl; reflexivity|].
  pose proof Hl as Hall. apply Forall2_app_inv_l in Hl as (l1 & l2 & H1 & H2 & ->). inversion H2 as [|? [[q t] z] ? ? Ht Hn]; subst.
  inversion Hn; subst. rewrite (calls_out E P), (IH _ H1), map_app. f_equal. cbn [map].
  pose proof (tells_about _ _ _ _ Ht) as Ha. destruct (bound_exists E P h c q _ _ Ha (tells_opens _ _ Ht Hx)) as (k & r & Hb).
  assert (Hr : r = VInt 1).
  { destruct Hb as (h1 & c' & h2 & Hd & _ & Ho & _). assert (Hin : c' ∈ h ++ [c]) by (rewrite Hd; set_solver).
    apply elem_of_list_lookup in Hin as (i & Hi). destruct (Forall2_lookup_l _ _ _ _ _ Hall Hi) as (y & _ & Hy).
    destruct Hy; inversion Ho; reflexivity. }
  assert (Hs : says E P h q k c (show_Z z ++ (if t then B "|ms" else B "|c"))).
  { inversion Ht; subst.
    - apply (sy_inc E P h q k n (VInt z) (VInt 1) Hx).
    - match goal with |- says _ _ _ _ _ (CDecrement _ (VInt ?y) _) _ => apply (sy_dec E P h q k n (VInt y) (VInt (- y)) (VInt 1) Hx eq_refl) end.
    - match goal with |- says _ _ _ _ _ (CTiming _ (Some (VInt ?y)) _) _ => apply (sy_timing E P h q k n (Some (VInt y)) (VInt 1) (VInt y) Hx) end. constructor. }
  destruct (spoken E P h c q k r _ Ha Hb Hs Hc) as (H & _ & _). rewrite H; [reflexivity|subst r; reflexivity|].
  intros b Hin. pose proof (tells_clean _ _ _ _ Ht) as Hcl.
  apply in_app_or in Hin as [Hin|Hin]; [apply Hcl; auto|].
  apply in_app_or in Hin as [Hin|Hin]; [destruct Hin as [<-|[]]; reflexivity|].
  apply in_app_or in Hin as [Hin|Hin]; [eapply float_ascii; [apply show_Z_text|exact Hin]|].
  destruct t; repeat (destruct Hin as [<-|Hin]; [reflexivity|]); destruct Hin.
Qed.
End tells.

(** the sum of the increments, and the durations, of a name *)
Fixpoint summed (key : str) (l : list (str * bool * Z)) : Z :=
  match l with
  | [] => 0
  | (q, t, z) :: l' => (if negb t && str_eqb (normalize_key q) key then z else 0) + summed key l'
  end.
Fixpoint durations (key : str) (l : list (str * bool * Z)) : list Z :=
  match l with
  | [] => []
  | (q, t, z) :: l' => (if t && str_eqb (normalize_key q) key then [z] else []) ++ durations key l'
  end.
Lemma summed_app key l k : summed key (l ++ k) = summed key l + summed key k.
Proof. induction l as [|[[q t] z] l IH]; [reflexivity|]. cbn [summed app]. rewrite IH. lia. Qed.

Section lines.
Context `{NN : Num} {NL : NumLaw NN} {NX : NumExact NN} {NI : NumInt NN}.
Lemma tell_typed q t z : clean_name q ->
  typed_line (tell_line (q, t, z)) (if t then B "ms" else B "c") (normalize_key q) [show_Z z; if t then B "ms" else B "c"].
Proof using NI.
  intros Hq. destruct t.
  - apply (plain_typed q (show_Z z) (B "ms")); [exact Hq|eapply reads_no_bar, reads_int|apply not_bar; reflexivity|discriminate|reflexivity].
  - apply (plain_typed q (show_Z z) (B "c")); [exact Hq|eapply reads_no_bar, reads_int|apply not_bar; reflexivity|discriminate|reflexivity].
Qed.
Lemma tell_amount key l : Forall (fun x => clean_name (fst (fst x))) l -> amount key (map tell_line l) (nofZ (summed key l)).
Proof using NL NX NI.
  assert (H0 : nofZ 0 = n0 (NN := NN)) by reflexivity.
  intros Hl. induction Hl as [|[[q t] z] l Hq _ (xs & Hx & Hs)]; [exists []; split; [constructor|reflexivity]|].
  cbn [fst] in Hq. cbn [map summed]. destruct (negb t && str_eqb (normalize_key q) key) eqn:Ek.
  - apply andb_true_iff in Ek as [Ht Ek]. destruct t; [discriminate|]. apply str_eqb_eq in Ek. subst key.
    exists (nofZ z :: xs). split.
    + constructor; [|exact Hx]. apply contribution_amount, int_amount, Hq.
    + rewrite nsum_cons, <- Hs, nofZ_add. reflexivity.
  - exists xs. split; [|rewrite Z.add_0_l; exact Hs]. constructor; [|exact Hx].
    intros b (v & r & Hc & _). pose proof (tell_typed q t z Hq) as Ht.
    assert (K : t = false /\ normalize_key q = key).
    { destruct Hc as [f0 v Hc _|f0 f2 run v r Hc _ _ _ _]; destruct (typed_line_fun _ _ _ _ _ _ _ Ht Hc) as (A & -> & _); destruct t; try discriminate; auto. }
    destruct K as [-> <-]. rewrite str_eqb_refl in Ek. discriminate.
Qed.
Lemma tell_durations key l : Forall (fun x => clean_name (fst (fst x))) l ->
  picks (fun m => timer_sample m key) (map tell_line l) (map nofZ (durations key l)).
Proof using NL NX NI.
  intros Hl. induction Hl as [|[[q t] z] l Hq _ IH]; [constructor|].
  cbn [fst] in Hq. cbn [map durations]. pose proof (tell_typed q t z Hq) as Ht. destruct (t && str_eqb (normalize_key q) key) eqn:Ek.
  - apply andb_true_iff in Ek as [-> Ek]. apply str_eqb_eq in Ek. subst key. cbn [app map]. constructor; [|exact IH].
    exists (show_Z z), [B "ms"]. split; [exact Ht|apply reads_int].
  - cbn [app]. constructor; [|exact IH]. intros b (f0 & fs & Hc & _).
    destruct (typed_line_fun _ _ _ _ _ _ _ Ht Hc) as (A & Ak & _). destruct t; [|discriminate]. rewrite Ak, str_eqb_refl in Ek. discriminate.
Qed.
End lines.

(** ** Any number of applications, a network, a daemon *)
Section fleet.
Context {NA : Num} (fleet : list (application (NA := NA) * list aevent)).
Definition client_of (p : application (NA := NA) * list aevent) : uclient := snd (arun (fst p) (snd p)).
Definition sent_by (p : application (NA := NA) * list aevent) : list str := passed_on (client_of p).
Definition held_by (p : application (NA := NA) * list aevent) : list str := held (client_of p).
Definition said_by (p : application (NA := NA) * list aevent) : list str := said (fst p) (snd p).
Context (Hq : Forall (fun p => quiet (ap_cfg (fst p))) fleet).
Lemma fleet_accounts : exists dropped, flat_map said_by fleet ≡ₚ flat_map sent_by fleet ++ flat_map held_by fleet ++ dropped /\
  (Forall (fun p => roomy (fst p) (snd p)) fleet -> dropped = []).
Proof using Hq.
  revert Hq. induction fleet as [|p ps IH]; intros HF; [exists []; split; [reflexivity|auto]|].
  apply Forall_cons in HF as [Hp HF]. destruct (IH HF) as (dropped & H1 & H2).
  destruct (app_accounts (fst p) Hp (snd p)) as (d & D1 & D2).
  exists (d ++ dropped). split.
  - cbn [flat_map]. unfold said_by at 1, sent_by at 1, held_by at 1, client_of. rewrite D1, H1. clear. rewrite perm_count. intros x. rewrite !count_occ_app. lia.
  - intros Hr. inversion Hr; subst. rewrite D2, H2 by assumption. reflexivity.
Qed.
Lemma fleet_lines (arrived got other lost extra : list str) : arrived ≡ₚ got ++ other -> got ++ lost ≡ₚ flat_map sent_by fleet ++ extra ->
  exists dropped, (Forall (fun p => roomy (fst p) (snd p)) fleet -> dropped = []) /\
    arrived ++ lost ++ flat_map held_by fleet ++ dropped ≡ₚ flat_map said_by fleet ++ extra ++ other.
Proof using Hq.
  intros Hout Hnet. destruct fleet_accounts as (dropped & Hp & Hr). exists dropped. split; [exact Hr|].
  clear -Hp Hout Hnet. counted_lists Hp Hout Hnet.
Qed.
(** the lines of integer histories *)
Context (ls : list (list (str * bool * Z))).
Context (Hm : Forall (fun p => m_ext (ap_met (fst p)) = false /\ m_conn (ap_met (fst p)) = true) fleet).
Context (Hl : Forall2 (fun p l => Forall2 (tells (NA := NA) (ap_met (fst p))) (api_calls (NA := NA) (snd p)) l) fleet ls).
Lemma fleet_said : flat_map said_by fleet = map tell_line (concat ls) /\ Forall (fun x => clean_name (fst (fst x))) (concat ls).
Proof using Hl Hm.
  clear Hq. revert Hm. pose proof Hl as HF. clear Hl. induction HF as [|p l ps ls' H _ IH]; intros Hm'; [split; [reflexivity|constructor]|].
  inversion Hm' as [|? ? [M1 M2] M3]; subst. destruct (IH M3) as [I1 I2]. cbn [flat_map concat]. rewrite map_app, I1. split.
  - f_equal. unfold said_by, said. apply tells_lines; assumption.
  - apply Forall_app. split; [|exact I2]. clear -H. induction H as [|c [[q t] z] ? ? Ht _ IH]; constructor; [eapply tells_clean, Ht|exact IH].
Qed.
End fleet.

Section conserved.
Context {NA : Num} (fleet : list (application (NA := NA) * list aevent)).
Context (Hq : Forall (fun p => quiet (ap_cfg (fst p))) fleet).
Context (arrived got other lost extra : list str).
Context (Hout : arrived ≡ₚ got ++ other) (Hnet : got ++ lost ≡ₚ flat_map sent_by fleet ++ extra).

Theorem fleet_counters `{NN : Num} {NL : NumLaw NN} {NX : NumExact NN} (G : engine) (s : site) addrs es out key :
  1000 <= s_interval s -> (forall x, ~ contribution key (m_message (s_mon s)) x) ->
  arrivals (s_max s) (map (fun a => (a, [])) addrs) (nets es) out -> arrived = map snd out ->
  exists dropped x a_lost a_held a_dropped a_said a_extra a_other a_own,
    (Forall (fun p => roomy (fst p) (snd p)) fleet -> dropped = []) /\ node_holds key (back G s addrs es) x /\
    amount key lost a_lost /\ amount key (flat_map held_by fleet) a_held /\ amount key dropped a_dropped /\
    amount key (flat_map said_by fleet) a_said /\ amount key extra a_extra /\ amount key other a_other /\ amount key (own es) a_own /\
    nadd x (nadd a_lost (nadd a_held a_dropped)) = nadd a_said (nadd a_extra (nadd a_other a_own)).
Proof using Hq Hout Hnet.
  intros Hint Hmon Harr ->. destruct (fleet_lines fleet Hq _ _ _ _ _ Hout Hnet) as (dropped & Hr & Hp).
  destruct (back_holds G s key addrs es out Hint Hmon Harr) as (x & Hx & Hax).
  destruct (amount_exists key lost) as (y1 & Y1). destruct (amount_exists key (flat_map held_by fleet)) as (y2 & Y2).
  destruct (amount_exists key dropped) as (y3 & Y3). destruct (amount_exists key (flat_map said_by fleet)) as (y4 & Y4).
  destruct (amount_exists key extra) as (y5 & Y5). destruct (amount_exists key other) as (y6 & Y6).
  destruct (amount_exists key (own es)) as (y7 & Y7).
  exists dropped, x, y1, y2, y3, y4, y5, y6, y7. repeat (split; [assumption|]).
  apply (amount_fun key ((map snd out ++ own es) ++ lost ++ flat_map held_by fleet ++ dropped)); [repeat apply amount_app; assumption|].
  eapply amount_perm; [|repeat apply amount_app; eassumption]. clear -Hp. rewrite perm_count in Hp |- *. intros z. specialize (Hp z).
  rewrite ?count_occ_app in *. lia.
Qed.

Theorem fleet_timers sq (E : env (NN := XQ sq)) plugins G interval percent cfg max refuses addrs es out key ls foreign :
  26 <= percent <= 100 -> (forall x, ~ timer_sample (NN := XQ sq) (m_message cfg) key x) ->
  arrivals max (map (fun a => (a, [])) addrs) (nets es) out -> arrived = map snd out ->
  Forall (fun p => m_ext (ap_met (fst p)) = false /\ m_conn (ap_met (fst p)) = true) fleet ->
  Forall2 (fun p l => Forall2 (tells (NA := NA) (ap_met (fst p))) (api_calls (NA := NA) (snd p)) l) fleet ls ->
  picks (fun m => timer_sample (NN := XQ sq) m key) (extra ++ other ++ own es) foreign -> Forall (fun x => x <> NaN) foreign ->
  let C := mp_cls E plugins in
  let d := drun (NN := XQ sq) G (process_message E C) (flush E C interval percent) [] cfg max false refuses (d_new addrs [] mp_init) es in
  exists dropped batches groups rest scheduled v_lost v_held v_dropped,
    (Forall (fun p => roomy (fst p) (snd p)) fleet -> dropped = []) /\
    picks (fun m => timer_sample (NN := XQ sq) m key) (v_pending (d_srv d)) scheduled /\
    picks (fun m => timer_sample (NN := XQ sq) m key) lost v_lost /\
    picks (fun m => timer_sample (NN := XQ sq) m key) (flat_map held_by fleet) v_held /\
    picks (fun m => timer_sample (NN := XQ sq) m key) dropped v_dropped /\
    (concat batches ++ default [] (p_timer (d_proc d) !! key) ++ scheduled) ++ v_lost ++ v_held ++ v_dropped
      ≡ₚ map nofZ (durations key (concat ls)) ++ foreign /\
    Forall2 (reports (NN := XQ sq) (fun p => p = percent) key) batches groups /\
    map (fun c => snd (fst c)) (d_calls d) ++ flat_map pending (map snd (d_live d) ++ d_gone d) ≡ₚ concat groups ++ rest /\
    Forall (alien (TimerSched.counted (metrics_in cfg out ++ own es)) key) rest.
Proof using Hq Hout Hnet.
  intros Hper Hmon Harr -> Hm Hl Hf Hn C d.
  destruct (fleet_lines fleet Hq _ _ _ _ _ Hout Hnet) as (dropped & Hr & Hp).
  destruct (fleet_said fleet ls Hm Hl) as [Hs Hc].
  destruct (samples_exist E plugins key (metrics_in cfg out ++ own es)) as (received & Hrec).
  destruct (samples_exist E plugins key lost) as (v1 & V1). destruct (samples_exist E plugins key (flat_map held_by fleet)) as (v2 & V2).
  destruct (samples_exist E plugins key dropped) as (v3 & V3).
  pose proof (tell_durations (NN := XQ sq) key (concat ls) Hc) as Hd. rewrite <- Hs in Hd.
  assert (Hrec' : picks (fun m => timer_sample (NN := XQ sq) m key) (map snd out ++ own es) received).
  { apply picks_split in Hrec as (r1 & r2 & -> & R1 & R2). apply picks_join; [|exact R2]. clear -R1 Hmon. unfold metrics_in in R1.
    revert r1 R1. induction out as [|y out IH]; intros r1 R1; [exact R1|]. cbn [List.filter map] in *.
    destruct (str_eqb (snd y) (m_message cfg)) eqn:Ey; cbn [negb] in R1.
    - apply str_eqb_eq in Ey. constructor; [rewrite Ey; exact Hmon|]. apply IH, R1.
    - cbn [map] in R1. inversion R1; subst; [apply picks_hit|apply picks_miss]; auto. }
  assert (Hall : received ++ v1 ++ v2 ++ v3 ≡ₚ map nofZ (durations key (concat ls)) ++ foreign).
  { eapply (picks_perm (fun m => timer_sample (NN := XQ sq) m key)); [intros m0 a0 b0; apply sample_fun| | |].
    2: { apply picks_join; [exact Hrec'|]. apply picks_join; [exact V1|]. apply picks_join; [exact V2|exact V3]. }
    2: { apply picks_join; [exact Hd|exact Hf]. }
    clear -Hp. rewrite perm_count in Hp |- *. intros z. specialize (Hp z). rewrite ?count_occ_app in *. lia. }
  assert (Hre : Forall (fun x => x <> NaN) received).
  { assert (Ha : Forall (fun x => x <> NaN) (map (nofZ (Num := XQ sq)) (durations key (concat ls)) ++ foreign)).
    { apply Forall_app. split; [|exact Hn]. apply Forall_forall. intros x Hx. apply elem_of_list_In, in_map_iff in Hx as (z & <- & _). discriminate. }
    rewrite <- Hall in Ha. apply Forall_app in Ha as [Ha _]. exact Ha. }
  destruct (daemon_timers (XQ sq) _ _ _ (summarises_xq sq (Z.of_nat (length received))) E plugins G interval percent cfg max refuses [] [] [] [] []
    (no_rules_built G) no_rules_text eq_refl Hper addrs es out key received Harr) as (batches & groups & rest & scheduled & T1 & T2 & T3 & T4 & T5).
  { apply Forall_forall. intros m _ t k fs _. constructor. }
  { exact Hrec. } { exact Hre. } { apply Z.le_refl. }
  exists dropped, batches, groups, rest, scheduled, v1, v2, v3. split; [exact Hr|]. split; [exact T1|]. split; [exact V1|]. split; [exact V2|]. split; [exact V3|].
  split; [etransitivity; [apply Permutation_app_tail; exact T2|exact Hall]|]. split; [exact T3|]. split; [exact T4|exact T5].
Qed.
End conserved.
