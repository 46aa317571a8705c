(** What holds of the configurable processor in every interleaving: the names of
    its reporters and of everything it emits, and what its timers have recorded. *)
From Verif Require Import Base StrFacts Num Env Stats Glob Metrics Gen GenFacts Processor Configurable
  LineSpec LineFacts FloatFacts ProcFacts ProcSpec ReceiveFacts ReceiveFacts2 ReceiveFacts3 PlugFacts Sched StepFacts CSched ConfFacts
  FlushInv FlushOk SampleFacts TimerHist.

(** ** the names, stated on their own *)
(** the name of a metric under a prefix *)
Definition under (prefix key : str) : str := match prefix with [] => key | _ => prefix ++ B "." ++ key end.
(** SLI metrics do not add a second dot to a prefix that already ends in one *)
Definition ends_in_dot (prefix : str) : Prop := exists p, prefix = p ++ B ".".
Definition sli_under (prefix key name : str) : Prop :=
  (ends_in_dot prefix /\ name = prefix ++ key) \/ (~ ends_in_dot prefix /\ name = under prefix key).
Definition suffixes : list str :=
  [B ".count"; B ".value"; B ".rate"; B ".999percentile"; B ".99percentile"; B ".max"; B ".mean"; B ".min"; B ".stddev";
   B ".count_1day"; B ".count_1hour"; B ".count_1min"].
Definition kind_names : list str := [B "counter"; B "timer"; B "gauge"; B "meter"; B "plugin"].
Definition summary_name (known : str -> Prop) (rest : str) : Prop :=
  rest = B "numStats" \/
  (exists kind, kind ∈ kind_names /\ (rest = B "flush." ++ kind ++ B ".count" \/ rest = B "flush." ++ kind ++ B ".duration")) \/
  (exists t, known t /\ (rest = B "receive." ++ t ++ B ".count" \/ rest = B "receive." ++ t ++ B ".duration")).
Definition conf_name (prefix internal : str) (known : str -> Prop) (name : str) : Prop :=
  (exists key suffix, alpha key /\ suffix ∈ suffixes /\ name = under prefix key ++ suffix) \/
  (exists key path suffix, alpha key /\ sli_under prefix key path /\
     (suffix = B ".count" \/ suffix = B ".error" \/ exists label, suffix = B ".count_" ++ label) /\ name = path ++ suffix) \/
  (exists rest, summary_name known rest /\ name = internal ++ rest).

Lemma dotted_under prefix key s : dotted prefix ++ key ++ s = under prefix key ++ s.
Proof. unfold dotted, under. destruct prefix; cbn [app]; [reflexivity|]. rewrite <- !app_assoc. reflexivity. Qed.
Lemma last_dot (p : str) : (match last p with Some c => eqc c "." | None => false end) = true <-> ends_in_dot p.
Proof.
  split.
  - destruct (last p) as [c|] eqn:El; [|discriminate]. intros H. apply last_Some in El as [l ->]. exists l.
    unfold eqc in H. apply Ascii.eqb_eq in H. subst c. reflexivity.
  - intros [l ->]. change (B ".") with ["."%char]. rewrite last_snoc. reflexivity.
Qed.
Lemma sli_path_under prefix key : sli_under prefix key (sli_path prefix key).
Proof.
  unfold sli_under, sli_path, under. destruct prefix as [|c p].
  - right. split; [|reflexivity]. intros [[|] Hp]; discriminate.
  - pose proof (last_dot (c :: p)) as Hl. set (q := c :: p) in *.
    destruct (match last q with Some c => eqc c "." | None => false end) eqn:Ed.
    + left. split; [apply Hl; reflexivity|reflexivity].
    + right. split; [intros H; apply Hl in H; discriminate|]. rewrite <- app_assoc. reflexivity.
Qed.

Section inv.
Context `{NN : Num} (E : env) (prefix internal : str) (plugins : list factory).
Notation C := (cp_cls E prefix internal plugins).
Notation creceive := (creceive E prefix internal plugins).
Notation cflush := (cflush E prefix internal plugins).
Notation creached := (creached E prefix internal plugins).

Definition known (t : str) : Prop := builtin t \/ exists f, plugin_table plugins !! t = Some f.
Definition cplug (k : str) (p : plug) : Prop :=
  match p with
  | PSli x => sl_name x = sli_path prefix k
  | PDist d => dm_prefix d = dotted prefix /\ dm_name d = k /\ ds_hashes (dm_counter d) <> []
  end.
Definition ctimer (k : str) (t : timer) : Prop := exists all since last, timer_after E k prefix all since last t.
Record CInv (s : cst) : Prop := {
  ci_c : forall k c, p_counter s !! k = Some c -> alpha k /\ ct_name c = k /\ ct_prefix c = dotted prefix;
  ci_t : forall k t, p_timer s !! k = Some t -> alpha k /\ ctimer k t;
  ci_g : forall k g, p_gauge s !! k = Some g -> alpha k /\ ga_name g = k /\ ga_prefix g = dotted prefix;
  ci_m : forall k m, p_meter s !! k = Some m -> alpha k /\ me_name m = k /\ me_prefix m = dotted prefix;
  ci_p : forall k p, p_plug s !! k = Some p -> alpha k /\ cplug k p;
  ci_ty : forall t, is_Some (p_ptime s !! t) -> known t;
  ci_bt : forall t, is_Some (p_ptime s !! t) <-> is_Some (p_btype s !! t) }.

Lemma ci_init : CInv cp_init.
Proof.
  split; cbn; try (intros k x H; rewrite lookup_empty in H; discriminate).
  - intros t [x H]. rewrite lookup_empty in H. discriminate.
  - intros t. rewrite !lookup_empty. split; intros [x H]; discriminate.
Qed.
Lemma view_alpha t m key v : view t m key = Some v -> alpha key.
Proof.
  unfold view. destruct (decode m) as [[[t' raw] [|f0 fs]]|]; try discriminate.
  destruct (str_eqb t' t && str_eqb (normalize_key raw) key) eqn:Eb; [|discriminate].
  apply andb_prop in Eb. destruct Eb as [_ Eb]. apply str_eqb_eq in Eb. subst key. intros _. apply normalize_key_alphabet.
Qed.
Lemma cplug_process k p fields w : cplug k p -> cplug k (fst (fst (plug_process E p fields w))).
Proof.
  destruct p as [x|d]; cbn.
  - intros H. pose proof (sli_process_name x fields). destruct (sli_process x fields). cbn in *. congruence.
  - intros H. unfold dmetric_process. destruct fields as [|f l]; [exact H|]. unfold now. cbn. exact H.
Qed.
Lemma cplug_build f k w q w' : build_metric E f prefix k w = (Ok q, w') -> cplug k q.
Proof.
  destruct f as [cfg|]; cbn [build_metric].
  - destruct (sli_conditions _ cfg ∅) as [cs|e]; [|discriminate]. intros [= <- _]. reflexivity.
  - unfold dmetric_new, distinct_new. pose proof (draw_tables_length E 32 w).
    destruct (draw_tables E 32 w) as [hs w2]. intros [= <- _]. cbn [cplug dm_prefix dm_name dm_counter ds_hashes].
    cbn [fst] in H. repeat split; [intros ->; discriminate].
Qed.
Lemma cknown t : known_type C t = true <-> known t.
Proof.
  unfold known_type, known. cbn [c_plugins cp_cls]. rewrite orb_true_iff, <- builtin_bool.
  destruct (plugin_table plugins !! t) as [f|].
  - split; [intros _; right; eauto|auto].
  - split; [intros [H|H]; [auto|discriminate]|intros [H|[x H]]; [auto|discriminate]].
Qed.
(** what a line does to the plugin metrics *)
Lemma cplug_receive m (s : cst) k p : p_plug (creceive m s) !! k = Some p ->
  p_plug s !! k = Some p \/
  exists t raw fields f, decode m = Some (t, raw, fields) /\ k = normalize_key raw /\ ~ builtin t /\
    plugin_table plugins !! t = Some f /\
    ((exists p0 w, p_plug s !! k = Some p0 /\ p = fst (fst (plug_process E p0 fields w))) \/
     (exists q w w', p_plug s !! k = None /\ build_metric E f prefix k w = (Ok q, w') /\
        p = fst (fst (plug_process E q fields w')))).
Proof.
  unfold ConfFacts.creceive. rewrite process_proj by apply proj_plug. intros H.
  destruct (decode m) as [[[t raw] fields]|] eqn:Hd; [|left; exact H].
  destruct (known_type C t) eqn:Hk; [|left; exact H].
  destruct (decode_cons _ _ _ _ Hd) as (f0 & l & ->).
  set (s1 := set_w (snd (now E (p_w s))) s) in *.
  destruct (str_eqb t (B "c") || str_eqb t (B "ms") || str_eqb t (B "g") || str_eqb t (B "m")) eqn:Eb.
  { left. pose proof (handler_frame E C (cp_frames E prefix internal plugins) m t (normalize_key raw) f0 l s1) as Hh.
    rewrite Eb in Hh. destruct Hh as (_ & _ & _ & _ & Hh & _). rewrite Hh in H by reflexivity. exact H. }
  assert (Hb : ~ builtin t) by (rewrite builtin_bool, Eb; discriminate).
  assert (Hh : handler E C m t (normalize_key raw) (f0 :: l) s1 = process_plugin_metric E C t (normalize_key raw) (f0 :: l) s1).
  { unfold handler. destruct (str_eqb t (B "c")); [discriminate|]. destruct (str_eqb t (B "ms")); [discriminate|].
    destruct (str_eqb t (B "g")); [discriminate|]. destruct (str_eqb t (B "m")); [discriminate|]. reflexivity. }
  rewrite Hh in H. apply cknown in Hk as [Hk|[f Hf]]; [contradiction|].
  remember (normalize_key raw) as key eqn:Ekey.
  unfold process_plugin_metric, bnd, get_, ret, raise in H. cbn [c_plugins cp_cls c_prefix] in H. rewrite Hf in H.
  change (p_plug s1) with (p_plug s) in H.
  destruct (p_plug s !! key) as [p0|] eqn:Ep.
  - change (p_plug s1) with (p_plug s) in H. rewrite Ep in H.
    destruct (plug_process E p0 (f0 :: l) (p_w s1)) as [[p' r] w'] eqn:Eq. cbn [fst p_plug set_plug] in H.
    change (p_plug s1) with (p_plug s) in H.
    destruct (decide (key = k)) as [->|Hne].
    + rewrite lookup_insert in H. injection H as <-. right. exists t, raw, (f0 :: l), f. repeat split; auto.
      left. exists p0, (p_w s1). rewrite Eq. auto.
    + rewrite lookup_insert_ne in H by auto. left. exact H.
  - destruct (build_metric E f prefix key (p_w s1)) as [[q|e] w'] eqn:Eq.
    + cbn [p_plug set_plug set_w p_w] in H. rewrite lookup_insert in H.
      destruct (plug_process E q (f0 :: l) w') as [[p' r] w''] eqn:Er. cbn [fst p_plug set_plug set_w] in H.
      change (p_plug s1) with (p_plug s) in H. rewrite insert_insert in H.
      destruct (decide (key = k)) as [->|Hne].
      * rewrite lookup_insert in H. injection H as <-. right. exists t, raw, (f0 :: l), f. repeat split; auto.
        right. exists q, (p_w s1), w'. rewrite Er. auto.
      * rewrite lookup_insert_ne in H by auto. left. exact H.
    + left. exact H.
Qed.

Lemma ci_receive m (s : cst) : CInv s -> CInv (creceive m s).
Proof.
  intros H. split.
  - intros k c Hk. rewrite ccounter_one in Hk. destruct (view (B "c") m k) as [v|] eqn:Ev; [|apply (ci_c s H); exact Hk].
    injection Hk as <-. split; [eapply view_alpha; exact Ev|].
    destruct (p_counter s !! k) as [c|] eqn:Ec; cbn; [apply (ci_c s H) in Ec; tauto|auto].
  - intros k t Hk. pose proof (ctimer_one E prefix internal plugins m k s) as Ht.
    destruct (view (B "ms") m k) as [d|] eqn:Ev; [|rewrite Ht in Hk; apply (ci_t s H); exact Hk].
    destruct Ht as [w Ht]. rewrite Ht in Hk. injection Hk as <-. split; [eapply view_alpha; exact Ev|].
    destruct (p_timer s !! k) as [t|] eqn:Et.
    + apply (ci_t s H) in Et as (_ & all & since & last & Ht'). do 3 eexists. apply timer_after_update. exact Ht'.
    + do 3 eexists. apply timer_after_update. apply timer_after_new.
  - intros k c Hk. rewrite cgauge_one in Hk. destruct (view (B "g") m k) as [v|] eqn:Ev; [|apply (ci_g s H); exact Hk].
    injection Hk as <-. split; [eapply view_alpha; exact Ev|].
    destruct (p_gauge s !! k) as [c|] eqn:Ec; cbn; [apply (ci_g s H) in Ec; tauto|auto].
  - intros k me Hk. rewrite cmeter_one in Hk. destruct (view (B "m") m k) as [v|] eqn:Ev; [|apply (ci_m s H); exact Hk].
    injection Hk as <-. split; [eapply view_alpha; exact Ev|].
    destruct (p_meter s !! k) as [c|] eqn:Ec; cbn; [apply (ci_m s H) in Ec; tauto|auto].
  - intros k p Hk. apply cplug_receive in Hk.
    destruct Hk as [Hk|(t & raw & fields & f & Hd & -> & Hb & Hf & [(p0 & w & Hp & ->)|(q & w & w' & _ & Hq & ->)])].
    + apply (ci_p s H). exact Hk.
    + split; [apply normalize_key_alphabet|]. apply cplug_process. apply (ci_p s H) in Hp. tauto.
    + split; [apply normalize_key_alphabet|]. apply cplug_process. eapply cplug_build. exact Hq.
  - intros t Ht. destruct (process_stats E C (cp_frames E prefix internal plugins) m s) as [[_ Hp]|(t' & raw & fields & n & x & Hd & Hk & _ & Hp)];
      unfold ConfFacts.creceive in Ht; rewrite Hp in Ht.
    + apply (ci_ty s H). exact Ht.
    + destruct (decide (t' = t)) as [<-|Hne]; [apply cknown; exact Hk|].
      rewrite lookup_insert_ne in Ht by auto. apply (ci_ty s H). exact Ht.
  - intros t. unfold ConfFacts.creceive.
    destruct (process_stats E C (cp_frames E prefix internal plugins) m s) as [[Hb Hp]|(t' & raw & fields & n & x & Hd & Hk & Hb & Hp)]; rewrite Hp, Hb.
    + apply (ci_bt s H).
    + destruct (decide (t' = t)) as [<-|Hne]; [rewrite !lookup_insert; split; eauto|].
      rewrite !lookup_insert_ne by auto. apply (ci_bt s H).
Qed.

Definition Qconf (d : dp) : Prop := conf_name prefix (internal_prefix prefix internal) known (dp_name d).
Lemma q_plain key suf v ts : alpha key -> suf ∈ suffixes -> Qconf (DP (dotted prefix ++ key ++ suf) v ts).
Proof. intros Hk Hs. left. exists key, suf. cbn [dp_name]. rewrite dotted_under. auto. Qed.
Ltac sfx := unfold suffixes; repeat (first [apply elem_of_list_here | apply elem_of_list_further]).
Lemma ci_same (s s' : cst) : CInv s ->
  p_timer s' = p_timer s -> p_counter s' = p_counter s -> p_gauge s' = p_gauge s ->
  p_meter s' = p_meter s -> p_plug s' = p_plug s -> p_ptime s' = p_ptime s -> p_btype s' = p_btype s ->
  CInv s'.
Proof.
  intros [H1 H2 H3 H4 H5 H6 H7] T Cc G Me P Pt Bt.
  split; rewrite ?T, ?Cc, ?G, ?Me, ?P, ?Pt, ?Bt; auto.
Qed.
Lemma cflush_safe i p : safeG CInv Qconf (cflush i p).
Proof.
  assert (Hw : forall s w, CInv s -> CInv (set_w w s)) by (intros; eapply ci_same; eauto).
  apply flush_safe; auto.
  - intros s x H. eapply ci_same; eauto.
  - intros s x H. eapply ci_same; eauto.
  - intros s [H1 H2 H3 H4 H5 H6 H7]. split; cbn; auto.
    + intros t [x Hx]. rewrite lookup_empty in Hx. discriminate.
    + intros t. rewrite !lookup_empty. split; intros [x Hx]; discriminate.
  - intros ts v. right. right. exists (B "numStats"). split; [left; reflexivity|reflexivity].
  - intros name v ts Hn. split; right; right; eexists; (split; [right; left; exists name; split; [exact Hn|]|reflexivity]); auto.
  - intros t v s ts Hs Ht. apply (ci_ty s Hs) in Ht.
    split; right; right; eexists; (split; [right; right; exists t; split; [exact Ht|]|reflexivity]); auto.
  - intros i' ts. apply gdict_safe; [exact Hw|]. intros key c s Hs Hc. destruct (ci_c s Hs key c Hc) as (Ha & Hn & Hp).
    unfold counter_report. destruct (ntrunc (ct_count c)) as [z|e]; [|exact Hs].
    split; [exact Hs|]. split; [|intros s2 Hs2; exact Hs2]. constructor; [|constructor]. rewrite Hn, Hp. apply q_plain; [exact Ha|sfx].
  - intros p' ts. apply gdict_safe; [exact Hw|]. intros key t s Hs Ht.
    destruct (ci_t s Hs key t Ht) as (Ha & all & since & last & Hta).
    assert (Hx : CInv (set_timer (<[key := fst (timer_report t ts)]> (p_timer s)) s)).
    { destruct Hs as [H1 H2 H3 H4 H5 H6 H7]. split; cbn; auto. intros k t' Hk. destruct (decide (key = k)) as [<-|Hne].
      - rewrite lookup_insert in Hk. injection Hk as <-. split; [exact Ha|].
        destruct (timer_report_fst t ts) as [-> | ->]; do 3 eexists; [exact Hta|eapply timer_after_clear; exact Hta].
      - rewrite lookup_insert_ne in Hk by auto. auto. }
    assert (Hq : forall ms, snd (timer_report t ts) = Ok ms -> Forall Qconf ms).
    { destruct Hta as (Hn & Hp & _). intros ms Hms. unfold timer_report in Hms.
      destruct (h_percentiles _ _) as [ps|]; [|discriminate]. destruct (h_stddev _); [|discriminate].
      destruct (ps !! 4%nat); [|discriminate]. destruct (ps !! 5%nat); [|discriminate]. destruct (timer_rate t ts); [|discriminate].
      cbn [snd] in Hms. injection Hms as <-. rewrite Hn, Hp. each; apply q_plain; (exact Ha || sfx). }
    destruct (timer_report t ts) as [t' r]. cbn [fst snd] in *.
    destruct r as [ms|e]; [|exact Hx]. split; [exact Hx|]. split; [apply Hq; reflexivity|]. intros s2 Hs2. exact Hs2.
  - intros ts. apply gdict_safe; [exact Hw|]. intros key g s Hs Hc. destruct (ci_g s Hs key g Hc) as (Ha & Hn & Hp).
    split; [exact Hs|]. split; [|intros s2 Hs2; exact Hs2]. constructor; [|constructor]. rewrite Hn, Hp. apply q_plain; [exact Ha|sfx].
  - intros ts. apply gdict_safe; [exact Hw|]. intros key m s Hs Hc. destruct (ci_m s Hs key m Hc) as (Ha & Hn & Hp).
    pose proof (meter_report_named m ts) as [N1 N2].
    assert (Hx : CInv (set_meter (<[key := fst (meter_report m ts)]> (p_meter s)) s)).
    { destruct Hs as [H1 H2 H3 H4 H5 H6 H7]. split; cbn; auto. intros k t' Hk. destruct (decide (key = k)) as [<-|Hne].
      - rewrite lookup_insert in Hk. injection Hk as <-. split; [exact Ha|]. split; congruence.
      - rewrite lookup_insert_ne in Hk by auto. auto. }
    assert (Hq : forall ms, snd (meter_report m ts) = Ok ms -> Forall Qconf ms).
    { intros ms Hms. unfold meter_report in Hms. destruct (neqb _ _); [injection Hms as <-; constructor|].
      destruct (pydiv _ _); [|discriminate]. injection Hms as <-. rewrite Hn, Hp. each; apply q_plain; (exact Ha || sfx). }
    destruct (meter_report m ts) as [m' r]. cbn [fst snd] in *.
    destruct r as [ms|e]; [|exact Hx]. split; [exact Hx|]. split; [apply Hq; reflexivity|]. intros s2 Hs2. exact Hs2.
  - intros ts. apply gdict_safe; [exact Hw|]. intros key q s Hs Hc. destruct (ci_p s Hs key q Hc) as (Ha & Hn).
    assert (Hcp : cplug key (fst (fst (plug_flush E q ts (p_w s))))).
    { destruct q as [x|d]; cbn [plug_flush].
      - pose proof (sli_flush_named E x ts (p_w s)). destruct (sli_flush E x ts (p_w s)) as [[x' l] w']. cbn in *. congruence.
      - destruct (dmetric_flush E d ts (p_w s)). exact Hn. }
    assert (Hq : forall ms, snd (fst (plug_flush E q ts (p_w s))) = Ok ms -> Forall Qconf ms).
    { destruct q as [x|d]; cbn [plug_flush cplug] in *.
      - unfold sli_flush. destruct (dict_keys E (sl_counts x) (p_w s)) as [ks w']. cbn [fst snd]. intros ms [= <-]. rewrite Hn.
        assert (Hone : forall suf v, (suf = B ".count" \/ suf = B ".error" \/ exists label, suf = B ".count_" ++ label) ->
                  Qconf (DP (sli_path prefix key ++ suf) v ts)).
        { intros suf v Hsuf. right. left. exists key, (sli_path prefix key), suf. split; [exact Ha|]. split; [apply sli_path_under|]. auto. }
        apply Forall_app. split; [|each; apply Hone; auto].
        clear -Hone. induction ks as [|k ks IH]; cbn [flat_map]; [constructor|]. apply Forall_app. split; [|exact IH].
        destruct (sl_counts x !! k); [|constructor]. each. apply Hone. eauto.
      - destruct Hn as (Hp & Hn & _). unfold dmetric_flush, now. cbn [fst snd].
        repeat match goal with |- context [distinct_count ?a ?b] => destruct (distinct_count a b); [|discriminate] end.
        intros ms [= <-]. rewrite Hp, Hn. each; apply q_plain; (exact Ha || sfx). }
    destruct (plug_flush E q ts (p_w s)) as [[q' r] w]. cbn [fst snd] in *.
    assert (Hx : CInv (set_plug (<[key := q']> (p_plug s)) (set_w w s))).
    { destruct Hs as [H1 H2 H3 H4 H5 H6 H7]. split; cbn; auto. intros k t' Hk. destruct (decide (key = k)) as [<-|Hne].
      - rewrite lookup_insert in Hk. injection Hk as <-. split; [exact Ha|exact Hcp].
      - rewrite lookup_insert_ne in Hk by auto. auto. }
    destruct r as [ms|e]; [|exact Hx]. split; [exact Hx|]. split; [apply Hq; reflexivity|]. intros s2 Hs2. exact Hs2.
Qed.
Lemma cinv_reached es : CInv (creached es).
Proof. apply (gsys_safe CInv Qconf creceive cflush cp_init es); [exact cflush_safe|apply ci_init|apply ci_receive]. Qed.
(** C29: every name sent, in every interleaving *)
Lemma cnames es : Forall (fun d => conf_name prefix (internal_prefix prefix internal) known (dp_name d))
  (g_out (gsys_run creceive cflush es (gsys_init cp_init))).
Proof. apply (gsys_safe CInv Qconf creceive cflush cp_init es); [exact cflush_safe|apply ci_init|apply ci_receive]. Qed.

(** *** timers in any interleaving *)
Definition treported (t t' : timer) : Prop := t' = t \/ exists x, t' = timer_clear t x.
Lemma timer_clear2 t x y : timer_clear (timer_clear t x) y = timer_clear t y.
Proof. unfold timer_clear. cbn. f_equal. unfold h_clear, us_clear. cbn. rewrite replicate_length. reflexivity. Qed.
Lemma ctimer_history es key : exists all, picks (value_line (B "ms") key) (lines es) all /\
  match p_timer (creached es) !! key with
  | None => all = []
  | Some t => all <> [] /\ exists before since last, all = before ++ since /\ timer_after E key prefix all since last t
  end.
Proof.
  apply (creached_history E prefix internal plugins treported) with
    (P := fun ls (s : cst) => exists all, picks (value_line (B "ms") key) ls all /\
       match p_timer s !! key with
       | None => all = []
       | Some t => all <> [] /\ exists before since last, all = before ++ since /\ timer_after E key prefix all since last t
       end).
  - left. reflexivity.
  - intros a b c [->|[x ->]] [->|[y ->]]; unfold treported; eauto. right. exists y. apply timer_clear2.
  - intros t ts. destruct (timer_report_fst t ts) as [-> | ->]; unfold treported; eauto.
  - exists []. split; [constructor|reflexivity].
  - intros ls m s (all & Hp & Ht). eexists. split; [apply (picks_snoc_view _ _ _ _ m Hp)|].
    pose proof (ctimer_one E prefix internal plugins m key s) as Ho.
    destruct (view (B "ms") m key) as [d|].
    + destruct Ho as [w Ho]. rewrite Ho. split; [destruct all; discriminate|].
      destruct (p_timer s !! key) as [t|].
      * destruct Ht as (_ & before & since & last & -> & Ht). exists before, (since ++ [d]), last.
        split; [rewrite app_assoc; reflexivity|]. apply timer_after_update. exact Ht.
      * subst all. exists [], [d], (fst (now E w)). split; [reflexivity|]. apply (timer_after_update E key prefix [] []). apply timer_after_new.
    + rewrite Ho, app_nil_r. exact Ht.
  - intros ls s s' (all & Hp & Ht) (_ & _ & Hd & _ & _ & _ & _ & Hr). exists all. split; [exact Hp|].
    destruct (p_timer s !! key) as [t|] eqn:Et.
    + destruct (Hr key t Et) as (t' & -> & Hrep). destruct Ht as (Hne & before & since & last & Hb & Ht). split; [exact Hne|].
      destruct Hrep as [->|[x ->]]; [eauto 6|]. exists all, [], x. split; [rewrite app_nil_r; reflexivity|].
      eapply timer_after_clear. exact Ht.
    + destruct (p_timer s' !! key) as [t'|] eqn:Et'; [|exact Ht]. exfalso.
      apply not_elem_of_dom in Et. apply Et. rewrite <- Hd. apply elem_of_dom. eauto.
Qed.
End inv.
