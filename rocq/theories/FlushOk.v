(** The flush of the compliant processor satisfies [okG]: it keeps [Inv], emits
    only acceptable names, and conserves whatever is stored in the counters. *)
From Verif Require Import Base StrFacts Num Env Stats Glob Metrics Gen GenFacts Processor
  LineSpec LineFacts FloatFacts ProcFacts ProcSpec ReceiveFacts ReceiveFacts2 PlugFacts Sched FlushInv.

(** names the processor may emit: in the alphabet, or an SLI condition count
    (whose label comes from the configuration) *)
Definition QnameG `{NN : Num} (al : str -> Prop) (d : dp) : Prop :=
  al (dp_name d) \/
  exists key label, dp_name d = B "stats.SLI." ++ key ++ B ".count_" ++ label.
Notation Qname := (QnameG alpha).

Ltac each := repeat match goal with
  | |- Forall _ [] => apply Forall_nil_2
  | |- Forall _ (_ :: _) => apply Forall_cons_2 end.

Section ok.
Context `{NN : Num} (E : env) (plugins : list factory).
Notation C := (mp_cls E plugins).
(** the names held are in [al], a set of names that contains the alphabet *)
Context (al : str -> Prop) (al_alpha : forall s, alpha s -> al s) (al_app : forall a b, al a -> al b -> al (a ++ b)).
Notation Inv := (@InvG NN al).
Notation Qname := (@QnameG NN al).
Ltac named := repeat match goal with |- al (_ ++ _) => apply al_app end; try (apply al_alpha; alit); auto.
Context {A : Type} (op : A -> A -> A) (e0 : A).
Context (op_comm : forall a b, op a b = op b a)
        (op_assoc : forall a b c, op a (op b c) = op (op a b) c)
        (op_e0 : forall a, op e0 a = a).
Context (pc : gmap str num -> A) (val : dp -> A).
Context (Hval : forall x v ts, val (DP (B "stats." ++ x) v ts) = e0)
        (Hvald : forall x v ts, val (DP (B "statsd." ++ x) v ts) = e0)
        (Hcount : forall (m : gmap str num) k n ts, m !! k = Some n ->
           pc m = op (pc (<[k := n0]> m)) (val (DP (count_prefix ++ k) (VF n) ts))).
Notation pot := (fun s : mst => pc (p_counter s)).
Notation ok := (okG op e0 Inv Qname pot val).
Notation owd := (owed op e0 val).
Notation tot := (total op e0 val).
Definition good (g : gen mst) : Prop := ok g /\ owd g = e0.
Definition loop_ok (loop : (Z -> gen mst) -> gen mst) : Prop :=
  forall k, (forall n, good (k n)) -> good (loop k).

Lemma op_e0r a : op a e0 = a. Proof using op_comm op_e0. rewrite op_comm. apply op_e0. Qed.

(** steps that only touch what neither [Inv] nor the counters depend on *)
Lemma inv_same (s s' : mst) : Inv s ->
  p_timer s' = p_timer s -> p_counter s' = p_counter s -> p_gauge s' = p_gauge s ->
  p_meter s' = p_meter s -> p_plug s' = p_plug s -> p_ptime s' = p_ptime s -> p_btype s' = p_btype s ->
  Inv s'.
Proof.
  intros [H1 H2 H3 H4 H5 H6 H7] T Cc G Me P Pt Bt. split.
  - rewrite Cc; auto.
  - rewrite T; auto.
  - rewrite G; auto.
  - rewrite Me; auto.
  - rewrite P; auto.
  - rewrite Pt; auto.
  - rewrite Pt, Bt; auto.
Qed.
Lemma inv_w w (s : mst) : Inv s -> Inv (set_w w s).
Proof. intros H. eapply inv_same; [exact H|reflexivity..]. Qed.

Lemma good_act f : (forall s, Inv s -> Inv (fst (f s)) /\ pot (fst (f s)) = pot s /\ good (snd (f s))) ->
  good (GAct f).
Proof using op_comm op_e0.
  intros H. split; [|reflexivity]. cbn [okG]. intros s Hs. specialize (H s Hs).
  destruct (f s) as [s' g']. cbn [fst snd] in H. destruct H as (H1 & H2 & H3 & H4).
  split; [auto|]. rewrite H4, op_e0r. auto.
Qed.
Lemma good_ret : good GRet. Proof. split; [exact I|reflexivity]. Qed.
Lemma good_raise e : good (GRaise e). Proof. split; [exact I|reflexivity]. Qed.

Lemma loop_gdict {V} (d : mst -> gmap str V) visit :
  (forall key v s, Inv s -> d s !! key = Some v ->
     match visit key v s with
     | (s', Exn _) => Inv s' /\ pot s = pot s'
     | (s', Ok None) => Inv s' /\ pot s = pot s'
     | (s', Ok (Some (ms, post))) =>
         Inv s' /\ pot s = op (pot s') (tot ms) /\ Forall Qname ms /\
         (forall s2, Inv s2 -> Inv (fst (post s2)) /\ pot (fst (post s2)) = pot s2)
     end) ->
  loop_ok (gdict E d visit).
Proof using op_comm op_assoc op_e0.
  intros Hv k Hk. apply good_act. intros s Hs. unfold gdict.
  destruct (dict_keys E (d s) (p_w s)) as [ks w]. cbn [fst snd].
  split; [apply inv_w; auto|]. split; [reflexivity|].
  pose proof (okG_giter op e0 op_comm op_assoc op_e0 Inv Qname pot val ks
     (fun s' => size (d s') =? size (d s))%nat
     (fun key s' => match d s' !! key with Some v => visit key v s' | None => (s', Ok None) end) k) as Hg.
  apply Hg; clear Hg.
  - intros key s1 Hs1. destruct (d s1 !! key) as [v|] eqn:Ev; [|auto]. exact (Hv key v s1 Hs1 Ev).
  - intros n. split; apply Hk.
Qed.

Lemma loop_timed loop k : loop_ok loop -> (forall n x, good (k n x)) -> good (timed E loop k).
Proof using op_comm op_e0.
  intros Hl Hk. apply good_act. intros s Hs. unfold now. cbn [fst snd].
  split; [apply inv_w; auto|]. split; [reflexivity|].
  apply Hl. intros n. apply good_act. intros s1 Hs1. cbn [fst snd].
  split; [apply inv_w; auto|]. split; [reflexivity|]. apply Hk.
Qed.

Lemma tot_stats (ms : list dp) :
  Forall (fun d => exists x, dp_name d = B "stats." ++ x \/ dp_name d = B "statsd." ++ x) ms -> tot ms = e0.
Proof using op_e0 Hval Hvald.
  induction 1 as [|d ms (x & Hx) _ IH]; [reflexivity|].
  cbn [total fold_right]. change (fold_right _ e0 ms) with (tot ms). rewrite IH.
  destruct d as [n v ts]. cbn in Hx. destruct Hx as [-> | ->]; rewrite ?Hval, ?Hvald; apply op_e0.
Qed.

(** counters *)
Lemma counter_loop interval ts : interval <> 0 -> loop_ok (mp_flush_counter E interval ts).
Proof using al_alpha al_app op_comm op_assoc op_e0 Hval Hvald Hcount.
  intros Hi. apply loop_gdict. intros key n s Hs Hn.
  destruct (interval =? 0) eqn:Ez; [lia|]. split; [|split; [|split]].
  - destruct Hs as [H1 H2 H3 H4 H5 H6 H7]. split; cbn; auto.
    intros k Hk. destruct (decide (key = k)) as [<-|Hne]; [eauto|].
    rewrite lookup_insert_ne in Hk by auto. auto.
  - cbn [total fold_right]. rewrite op_e0r. unfold stats_prefix. rewrite Hval, op_e0.
    apply (Hcount _ _ _ ts Hn).
  - assert (al key) by (apply (inv_c s Hs); eauto).
    each; left; cbn [dp_name]; unfold stats_prefix, count_prefix; named.
  - intros s2 Hs2. auto.
Qed.

(** timers *)
Lemma timer_loop percent ts : loop_ok (mp_flush_timer E percent ts).
Proof using al_alpha al_app op_comm op_assoc op_e0 Hval Hvald.
  apply loop_gdict. intros key ds s Hs Hn.
  destruct ds as [|x ds]; [auto|].
  assert (Hk : al key) by (apply (inv_t s Hs); eauto).
  assert (Hi : Inv (set_timer (<[key := []]> (p_timer s)) s)).
  { destruct Hs as [H1 H2 H3 H4 H5 H6 H7]. split; cbn; auto.
    intros k Hk'. destruct (decide (key = k)) as [<-|Hne]; [eauto|].
    rewrite lookup_insert_ne in Hk' by auto. auto. }
  destruct (timer_stats percent (x :: ds)) as [[[[[mean upper] tupper] lower] count]|e]; [|split; [exact Hi|reflexivity]].
  split; [auto|]. split; [|split].
  - rewrite tot_stats; [rewrite op_e0r; reflexivity|].
    each; cbn [dp_name]; eexists; left; unfold timer_prefix;
      change (B "stats.timers.") with (B "stats." ++ B "timers."); rewrite <- app_assoc; reflexivity.
  - each; left; cbn [dp_name]; unfold timer_prefix; named. apply al_alpha, alpha_show_Z.
  - intros s2 Hs2. auto.
Qed.

(** gauges *)
Lemma gauge_loop ts : loop_ok (mp_flush_gauge ts).
Proof using al_alpha al_app op_comm op_assoc op_e0 Hval Hvald.
  intros k Hk. split; [|reflexivity]. cbn [okG mp_flush_gauge]. intros s Hs.
  assert (Hg : good (giter (p_gauge s)
     (fun s' : mst => (length (p_gauge s') =? length (p_gauge s))%nat)
     (fun '(v, key) (s' : mst) => (s', Ok (Some ([DP (gauge_prefix ++ key ++ B ".value") (VF v) ts], no_post)))) 0 k)).
  2:{ destruct Hg as [H1 H2]. split; [exact Hs|]. split; [|exact H1].
      exact (eq_trans (eq_sym (op_e0r _)) (f_equal (op (pc (p_counter s))) (eq_sym H2))). }
  pose proof (inv_g s Hs) as HF. remember (p_gauge s) as l eqn:El.
  remember (fun s' : mst => (length (p_gauge s') =? length l)%nat) as u eqn:Eu. clear Eu El s Hs.
  generalize 0. induction l as [|[v key] l IH]; intros n; (split; [|reflexivity]).
  - cbn [giter okG]. intros s Hs. destruct (u s).
    + destruct (Hk n) as [H1 ->]. rewrite op_e0r. auto.
    + cbn. rewrite op_e0r. auto.
  - inversion HF as [|? ? Ha HF']; subst. cbn [giter okG]. intros s Hs. destruct (negb (u s)).
    + cbn. rewrite op_e0r. auto.
    + cbn [owed okG]. split; [auto|]. rewrite op_e0r. split; [|split].
      * rewrite tot_stats; [rewrite op_e0r; reflexivity|]. each. cbn [dp_name].
        eexists. left. unfold gauge_prefix.
        change (B "stats.gauge.") with (B "stats." ++ B "gauge."). rewrite <- app_assoc. reflexivity.
      * each. left. cbn [dp_name]. unfold gauge_prefix. named.
      * intros s2 Hs2. cbn [no_post]. destruct (IH HF' (n + 1)) as [H1 ->]. rewrite op_e0r. auto.
Qed.

(** meters *)
Lemma meter_report_named (m : meter) ts : me_prefix (fst (meter_report m ts)) = me_prefix m /\
  me_name (fst (meter_report m ts)) = me_name m.
Proof.
  unfold meter_report. destruct (neqb _ _); [auto|]. destruct (pydiv _ _); auto.
Qed.
Lemma meter_report_items (m : meter) ts ms : snd (meter_report m ts) = Ok ms ->
  Forall (fun d => exists suf, alpha suf /\ dp_name d = me_prefix m ++ me_name m ++ suf) ms.
Proof.
  unfold meter_report. destruct (neqb _ _); [intros [= <-]; constructor|].
  destruct (pydiv _ _); [|discriminate]. intros [= <-].
  each; cbn [dp_name]; eexists; (split; [|reflexivity]); alit.
Qed.
Lemma meter_loop ts : loop_ok (flush_meter E ts).
Proof using al_alpha al_app op_comm op_assoc op_e0 Hval Hvald.
  apply loop_gdict. intros key m s Hs Hn.
  destruct (inv_m s Hs key m Hn) as [Hk [Hp Hnm]].
  destruct (meter_report_named m ts) as [N1 N2]. pose proof (meter_report_items m ts) as N3.
  destruct (meter_report m ts) as [m' r]. cbn [fst snd] in *.
  assert (Hi : Inv (set_meter (<[key := m']> (p_meter s)) s)).
  { destruct Hs as [H1 H2 H3 H4 H5 H6 H7]. split; cbn; auto.
    intros k m1 Hk'. destruct (decide (key = k)) as [<-|Hne].
    - rewrite lookup_insert in Hk'. injection Hk' as <-. split; [auto|]. split; congruence.
    - rewrite lookup_insert_ne in Hk' by auto. auto. }
  destruct r as [ms|e]; [|split; [exact Hi|reflexivity]]. specialize (N3 ms eq_refl). split; [auto|]. split; [|split].
  - rewrite tot_stats; [rewrite op_e0r; reflexivity|].
    eapply Forall_impl; [exact N3|]. intros d (suf & _ & Hd). rewrite Hd, Hp. exists (B "meter." ++ me_name m ++ suf).
    left. change (B "stats.meter.") with (B "stats." ++ B "meter."). rewrite <- app_assoc. reflexivity.
  - eapply Forall_impl; [exact N3|]. intros d (suf & Ha & Hd). left. rewrite Hd, Hp, Hnm. named.
  - intros s2 Hs2. auto.
Qed.

(** plugins *)
Lemma sli_flush_named x ts w : sl_name (fst (fst (sli_flush E x ts w))) = sl_name x.
Proof. unfold sli_flush. destruct (dict_keys E (sl_counts x) w). reflexivity. Qed.
Lemma sli_flush_items x ts w :
  Forall (fun d => (exists label, dp_name d = sl_name x ++ B ".count_" ++ label) \/
                   exists suf, alpha suf /\ dp_name d = sl_name x ++ suf) (snd (fst (sli_flush E x ts w))).
Proof.
  unfold sli_flush. destruct (dict_keys E (sl_counts x) w) as [ks w']. cbn [fst snd].
  apply Forall_app. split.
  - induction ks as [|k ks IH]; cbn [flat_map]; [constructor|]. apply Forall_app. split; [|exact IH].
    destruct (sl_counts x !! k); [|constructor]. each. left. cbn. eauto.
  - each; right; cbn [dp_name]; eexists; (split; [|reflexivity]); alit.
Qed.
Lemma dmetric_flush_items d ts w ms : fst (dmetric_flush E d ts w) = Ok ms ->
  Forall (fun x => exists suf, alpha suf /\ dp_name x = dm_prefix d ++ dm_name d ++ suf) ms.
Proof.
  unfold dmetric_flush, now. cbn [fst].
  repeat match goal with |- context [distinct_count ?a ?b] => destruct (distinct_count a b); [|discriminate] end.
  intros [= <-]. each; cbn [dp_name]; eexists; (split; [|reflexivity]); alit.
Qed.
Lemma plug_loop ts : loop_ok (flush_plugins E ts).
Proof using al_alpha al_app op_comm op_assoc op_e0 Hval Hvald.
  apply loop_gdict. intros key p s Hs Hn. destruct (inv_p s Hs key p Hn) as [Hk Hp].
  assert (Hx : forall p' r w, plug_flush E p ts (p_w s) = (p', r, w) -> plug_named key p' /\
     forall ms, r = Ok ms ->
       Forall (fun d => exists x, dp_name d = B "stats." ++ x \/ dp_name d = B "statsd." ++ x) ms /\ Forall Qname ms).
  { intros p' r w. destruct p as [x|d]; cbn [plug_flush].
    - pose proof (sli_flush_named x ts (p_w s)) as N1. pose proof (sli_flush_items x ts (p_w s)) as N2.
      destruct (sli_flush E x ts (p_w s)) as [[x' l] w']. cbn [fst snd] in *. intros [= <- <- <-].
      cbn [plug_named] in *. split; [congruence|]. intros ms [= <-]. rewrite Hp in N2. split.
      + eapply Forall_impl; [exact N2|]. change (B "stats.SLI.") with (B "stats." ++ B "SLI.").
        intros d0 [[lb Hd]|(suf & _ & Hd)]; rewrite Hd; rewrite <- !app_assoc; eauto.
      + eapply Forall_impl; [exact N2|].
        intros d0 [[lb Hd]|(suf & Ha & Hd)].
        * right. exists key, lb. rewrite Hd, <- app_assoc. reflexivity.
        * left. rewrite Hd. named.
    - pose proof (dmetric_flush_items d ts (p_w s)) as N2.
      destruct (dmetric_flush E d ts (p_w s)) as [r' w']. cbn [fst] in N2. intros [= <- <- <-].
      split; [exact Hp|]. intros ms Hr. specialize (N2 ms Hr). destruct Hp as (P1 & P2 & _). split.
      + eapply Forall_impl; [exact N2|]. intros d0 (suf & _ & Hd). rewrite Hd, P1.
        exists (B "pdistinct." ++ dm_name d ++ suf). left.
        change (B "stats.pdistinct.") with (B "stats." ++ B "pdistinct."). rewrite <- app_assoc. reflexivity.
      + eapply Forall_impl; [exact N2|]. intros d0 (suf & Ha & Hd). left. rewrite Hd, P1, P2. named. }
  destruct (plug_flush E p ts (p_w s)) as [[p' r] w]. destruct (Hx p' r w eq_refl) as [Hnm Hms].
  assert (Hi : Inv (set_plug (<[key := p']> (p_plug s)) (set_w w s))).
  { destruct Hs as [H1 H2 H3 H4 H5 H6 H7]. split; cbn; auto.
    intros k m1 Hk'. destruct (decide (key = k)) as [<-|Hne].
    - rewrite lookup_insert in Hk'. injection Hk' as <-. auto.
    - rewrite lookup_insert_ne in Hk' by auto. auto. }
  destruct r as [ms|e]; [|split; [exact Hi|reflexivity]]. destruct (Hms ms eq_refl) as [M1 M2]. split; [auto|]. split; [|split; [auto|]].
  - rewrite tot_stats by exact M1. rewrite op_e0r. reflexivity.
  - intros s2 Hs2. auto.
Qed.

(** summary *)
Lemma summary_good n per ts : Forall (fun '(name, _) => al name) per ->
  good (GAct (fun s => (s, flush_summary E C n per ts))).
Proof using al_alpha al_app op_comm op_assoc op_e0 Hval Hvald.
  intros Hper. split; [|reflexivity]. cbn [okG]. intros s Hs.
  cbn [flush_summary mp_cls c_internal owed okG].
  rewrite (tot_stats [_]) by (each; eexists; right; reflexivity).
  rewrite !op_e0r. split; [auto|]. split; [reflexivity|]. split; [each; left; cbn [dp_name]; named|].
  clear s Hs. intros s Hs.
  set (pm := list_to_map per). destruct (dict_keys E pm (p_w s)) as [names w].
  assert (Hpm : forall name v, pm !! name = Some v -> al name).
  { intros name v Hv. apply elem_of_list_to_map_2 in Hv. rewrite Forall_forall in Hper.
    apply (Hper (name, v)). exact Hv. }
  split; [eapply inv_same; [exact Hs|reflexivity..]|].
  match goal with |- context [giter names ?u ?v 0 ?k] =>
    pose proof (okG_giter op e0 op_comm op_assoc op_e0 Inv Qname pot val names u v k) as Hg end.
  assert (Hgood : forall n, good (giter names (fun _ : mst => true)
     (fun (name : str) (s' : mst) => match pm !! name with
        | Some (ev, du) => summary_kind C ts name ev du s' | None => (s', Ok None) end) n
     (fun _ => GAct (fun s1 => (set_lpd n0 s1, gdict E p_ptime (summary_type C ts)
        (fun _ => GAct (fun s2 => (set_btype ∅ (set_ptime ∅ s2), GRet)))))))).
  { apply Hg; clear Hg.
    - intros name s1 Hs1. destruct (pm !! name) as [[ev du]|] eqn:Ep; [|auto].
      apply Hpm in Ep. cbn [summary_kind mp_cls c_internal]. split; [auto|]. split; [|split].
      + rewrite tot_stats by (each; eexists; right; reflexivity). rewrite op_e0r. reflexivity.
      + each; left; cbn [dp_name]; named.
      + intros s2 Hs2. cbn [fst]. split; [eapply inv_same; [exact Hs2|reflexivity..]|reflexivity].
    - intros m. cut (good (GAct (fun s1 => (set_lpd n0 s1, gdict E p_ptime (summary_type C ts)
        (fun _ => GAct (fun s2 => (set_btype ∅ (set_ptime ∅ s2), GRet))))))); [intros [? ?]; auto|].
      apply good_act. intros s1 Hs1. cbn [fst snd].
      split; [eapply inv_same; [exact Hs1|reflexivity..]|]. split; [reflexivity|].
      apply loop_gdict.
      + intros t du s2 Hs2 Ht. unfold summary_type.
        assert (Ha : al t) by (apply al_alpha, (inv_ty s2 Hs2); eauto).
        destruct (p_btype s2 !! t) as [c|]; [|auto]. cbn [mp_cls c_internal].
        split; [auto|]. split; [|split].
        * rewrite tot_stats by (each; eexists; right; reflexivity). rewrite op_e0r. reflexivity.
        * each; left; cbn [dp_name]; named.
        * intros s3 Hs3. destruct (p_btype s3 !! t); cbn [fst]; [|auto].
          split; [eapply inv_same; [exact Hs3|reflexivity..]|reflexivity].
      + intros _. apply good_act. intros s2 Hs2. cbn [fst snd].
        split; [|split; [reflexivity|apply good_ret]].
        destruct Hs2 as [H1 H2 H3 H4 H5 H6 H7]. split; cbn; auto.
        * intros t [x Hx]. rewrite lookup_empty in Hx. discriminate.
        * intros t. rewrite !lookup_empty. split; intros [x Hx]; discriminate. }
  destruct (Hgood 0) as [H1 H2]. split; [|exact H1].
  exact (eq_trans (eq_sym (op_e0r _)) (f_equal (op (pc (p_counter s))) (eq_sym H2))).
Qed.

Lemma summary_good' n per ts : Forall (fun '(name, _) => al name) per ->
  good (flush_summary E C n per ts).
Proof using al_alpha al_app op_comm op_assoc op_e0 Hval Hvald.
  intros Hper. destruct (summary_good n per ts Hper) as [H _]. cbn [okG] in H.
  specialize (H mp_init (inv_initG al)). destruct H as (_ & _ & H). split; [exact H|].
  cbn [flush_summary owed]. rewrite tot_stats by (each; eexists; right; reflexivity).
  apply op_e0r.
Qed.

Theorem flush_goodG interval percent : 1000 <= interval -> good (flush E C interval percent).
Proof using al_alpha al_app op_comm op_assoc op_e0 Hval Hvald Hcount.
  intros Hi. apply good_act. intros s Hs. unfold now. cbn [fst snd].
  split; [apply inv_w; auto|]. split; [reflexivity|].
  destruct (ntrunc _) as [ts|e]; [|apply good_raise].
  cbn [mp_cls c_flush_counter c_flush_timer c_flush_gauge c_flush_meter].
  apply loop_timed; [apply counter_loop|intros].
  { intros H. pose proof (Z.div_mod interval 1000). pose proof (Z.mod_pos_bound interval 1000). lia. }
  apply loop_timed; [apply timer_loop|intros].
  apply loop_timed; [apply gauge_loop|intros].
  apply loop_timed; [apply meter_loop|intros].
  apply loop_timed; [apply plug_loop|intros].
  apply summary_good'. each; apply al_alpha; alit.
Qed.
End ok.

Section alphabet.
Context `{NN : Num} (E : env) (plugins : list factory).
Context {A : Type} (op : A -> A -> A) (e0 : A).
Context (op_comm : forall a b, op a b = op b a)
        (op_assoc : forall a b c, op a (op b c) = op (op a b) c)
        (op_e0 : forall a, op e0 a = a).
Context (pc : gmap str num -> A) (val : dp -> A).
Context (Hval : forall x v ts, val (DP (B "stats." ++ x) v ts) = e0)
        (Hvald : forall x v ts, val (DP (B "statsd." ++ x) v ts) = e0)
        (Hcount : forall (m : gmap str num) k n ts, m !! k = Some n ->
           pc m = op (pc (<[k := n0]> m)) (val (DP (count_prefix ++ k) (VF n) ts))).
Theorem flush_good interval percent : 1000 <= interval ->
  good alpha op e0 pc val (flush E (mp_cls E plugins) interval percent).
Proof using op_comm op_assoc op_e0 Hval Hvald Hcount.
  apply flush_goodG; try assumption; [auto|]. intros a b Ha Hb. apply alpha_app. auto.
Qed.
End alphabet.
