(** A distinct-count metric under every interleaving of receiving and flushing: the items kept are
    those of the lines received, each at the time the clock gave for it, and each group of four
    estimates sent is that of the items received before the flush read the clock. *)
From Verif Require Import Base StrFacts Num Env Stats Glob Metrics Gen GenFacts Processor
  LineSpec LineFacts FloatFacts ProcFacts ProcSpec ReceiveFacts ReceiveFacts2 ReceiveFacts3 PlugFacts
  Sched FlushInv FlushOk SchedFacts StepFacts BlockFacts MeterFacts FlushSpec FlushParts SeriesFacts DistinctFacts MeterSched.

(** ** What the theorems speak about *)
Section spec.
Context `{NN : Num}.
(** the item a line gives the metric *)
Definition distinct_item (m key item : str) : Prop := exists fs, typed_line m (B "pd") key (item :: fs).
(** the names of the metric *)
Definition distinct_names (key n : str) : Prop :=
  exists suf, In suf [B ".count"; B ".count_1day"; B ".count_1hour"; B ".count_1min"] /\ n = B "stats.pdistinct." ++ key ++ suf.
(** a datapoint that is not the metric's: it bears none of its names, or it is the rate of a
    counter whose name begins with "pdistinct." *)
Definition not_distincts (K : str -> Prop) (key : str) (d : dp) : Prop :=
  ~ distinct_names key (dp_name d) \/ exists c v ts, K c /\ d = DP (B "stats." ++ c) (VF v) ts.
(** items at the readings of the clock *)
Definition at_times (E : env) (hist : list (nat * str)) : list (num * str) := map (fun x => (e_clock E (fst x), snd x)) hist.
(** a new counter: 32 hash functions, 32 buckets each (distinctmetric.py:84-89, 128-144) *)
Definition empty_counter (E : env) (w : world) : distinct := fst (distinct_new E 32 32 w).
(** the items that came before the [i]th reading *)
Definition before (i : nat) (hist : list (nat * str)) : list (nat * str) := List.filter (fun x => (fst x <? i)%nat) hist.
(** the four datapoints of a report made at time [t] about these items; [d0] is the empty counter *)
Definition four_estimates (key : str) (d0 : distinct) (items : list (num * str)) (t : num) (ts : Z) (l : list dp) : Prop :=
  exists all day hour minute,
    distinct_count (adds items d0) n0 = Ok all /\
    distinct_count (adds items d0) (nsub t (nofZ 86400)) = Ok day /\
    distinct_count (adds items d0) (nsub t (nofZ 3600)) = Ok hour /\
    distinct_count (adds items d0) (nsub t (nofZ 60)) = Ok minute /\
    l = [DP (B "stats.pdistinct." ++ key ++ B ".count") (VI all) ts;
         DP (B "stats.pdistinct." ++ key ++ B ".count_1day") (VI day) ts;
         DP (B "stats.pdistinct." ++ key ++ B ".count_1hour") (VI hour) ts;
         DP (B "stats.pdistinct." ++ key ++ B ".count_1min") (VI minute) ts].
End spec.

(** ** Receiving lines and the clock *)
Section clocks.
Context `{NN : Num} (E : env) (plugins : list factory).
Notation C := (mp_cls E plugins).
Notation clk s := (w_clk (p_w s)).
(** the clock is never read backwards *)
Definition onward {A} (f : M mst A) : Prop := forall s, (clk s <= clk (fst (f s)))%nat.
Lemma onward_bnd {A D} (f : M mst A) (g : A -> M mst D) : onward f -> (forall a, onward (g a)) -> onward (bnd f g).
Proof.
  intros Hf Hg s. unfold bnd. specialize (Hf s). destruct (f s) as [s' [a|e]]; cbn [fst] in *; [|exact Hf]. specialize (Hg a s'). lia.
Qed.
Lemma onward_mod (f : mst -> mst) : (forall s, p_w (f s) = p_w s) -> onward (mod_ f).
Proof. intros H s. unfold mod_. cbn [fst]. rewrite H. apply le_n. Qed.
Lemma onward_time : onward (time_ E).
Proof. intros s. unfold time_, now. cbn. lia. Qed.
Lemma onward_fail m : onward (fail m).
Proof. apply onward_mod. reflexivity. Qed.
Lemma onward_raise {A} e : onward (A := A) (raise e).
Proof. intros s. cbn. lia. Qed.
Lemma onward_finish t start : onward (finish_message E t start).
Proof.
  unfold finish_message. apply onward_bnd; [apply onward_mod; intros s; destruct (p_ptime s !! t); reflexivity|intros _].
  apply onward_bnd; [apply onward_time|intros x]. apply onward_mod. reflexivity.
Qed.
Lemma draw_clk n w : w_clk (snd (draw_tables E n w)) = w_clk w.
Proof.
  revert w. induction n as [|n IH]; intros w; [reflexivity|]. cbn [draw_tables]. unfold draw_table.
  match goal with |- context [draw_tables E n ?w1] => specialize (IH w1); destruct (draw_tables E n w1) as [ts w2] end. exact IH.
Qed.
Lemma new_clk nh nb w : w_clk (snd (distinct_new E nh nb w)) = w_clk w.
Proof. unfold distinct_new. pose proof (draw_clk nh w) as H. destruct (draw_tables E nh w) as [hs w']. exact H. Qed.
Lemma build_clk f p k w : w_clk (snd (build_metric E f p k w)) = w_clk w.
Proof.
  destruct f as [config|]; cbn [build_metric].
  - destruct (sli_conditions _ _ _); reflexivity.
  - unfold dmetric_new. pose proof (new_clk 32 32 w) as H. destruct (distinct_new E 32 32 w) as [d w']. exact H.
Qed.
Lemma process_clk p fields w : (w_clk w <= w_clk (snd (plug_process E p fields w)))%nat.
Proof.
  destruct p as [x|d]; cbn [plug_process].
  - destruct (sli_process x fields). reflexivity.
  - destruct fields; cbn; lia.
Qed.
Lemma onward_plug t k fields : onward (process_plugin_metric E C t k fields).
Proof.
  unfold process_plugin_metric. apply onward_bnd; [intros s; cbn; lia|]. intros s0. apply onward_bnd.
  - destruct (p_plug s0 !! k); [intros s; cbn; lia|]. destruct (c_plugins C !! t) as [f|]; [|apply onward_raise].
    intros s1. pose proof (build_clk f (c_prefix C (factory_name f)) k (p_w s1)) as H.
    destruct (build_metric _ _ _ _ _) as [[q|e] w]; cbn in *; lia.
  - intros _ s1. destruct (p_plug s1 !! k) as [p|]; [|cbn; lia]. pose proof (process_clk p fields (p_w s1)) as H.
    destruct (plug_process E p fields (p_w s1)) as [[p' r] w]. cbn in *. lia.
Qed.
Lemma onward_handler m t k fields : onward (handler E C m t k fields).
Proof.
  unfold handler. destruct fields as [|f0 fs]; [apply onward_raise|].
  destruct (str_eqb t (B "c")).
  { cbn [mp_cls c_process_counter]. unfold mp_process_counter.
    assert (Hc : forall k v r, onward (mp_compose_counter k v r)).
    { intros k1 v r. unfold mp_compose_counter. apply onward_bnd; [apply onward_mod; intros s; destruct (p_counter s !! k1); reflexivity|intros _].
      apply onward_bnd; [intros s; cbn; lia|intros x]. apply onward_bnd; [intros s; cbn; lia|intros y]. apply onward_mod. reflexivity. }
    destruct (float_of f0); [|apply onward_fail].
    destruct fs as [|a [|b [|? ?]]]; try apply Hc. destruct (rate_match b); [apply Hc|apply onward_fail]. }
  destruct (str_eqb t (B "ms")).
  { unfold process_timer_metric. destruct (float_of f0); [apply onward_mod; reflexivity|apply onward_fail]. }
  destruct (str_eqb t (B "g")).
  { unfold process_gauge_metric. destruct (negb _); [apply onward_fail|]. destruct (float_of f0); [apply onward_mod; reflexivity|].
    apply onward_bnd; [apply onward_fail|intros; apply onward_raise]. }
  destruct (str_eqb t (B "m")).
  { unfold process_meter_metric. destruct (negb _); [apply onward_fail|]. destruct (float_of f0).
    - cbn [mp_cls c_compose_meter]. unfold compose_meter. apply onward_bnd.
      + intros s. destruct (p_meter s !! k); [cbn; lia|]. unfold meter_new, now. cbn. lia.
      + intros _. apply onward_mod. intros s. destruct (p_meter s !! k); reflexivity.
    - apply onward_bnd; [apply onward_fail|intros; apply onward_raise]. }
  apply onward_plug.
Qed.
Notation receive := (receive E plugins).
Lemma receive_clk m s : (clk s <= clk (receive m s))%nat.
Proof.
  unfold ReceiveFacts.receive. rewrite process_decode. destruct (decode m) as [[[t raw] fields]|] eqn:Hd; [|cbn; lia].
  destruct (decode_cons _ _ _ _ Hd) as (f0 & l & ->). rewrite process_message_handler. unfold now.
  destruct (known_type C t); [|cbn; lia].
  match goal with |- context [bnd ?f ?g ?s1] => pose proof (onward_bnd f g (onward_handler m t _ (f0 :: l)) (fun _ => onward_finish t _) s1) as H end.
  etransitivity; [|exact H]. cbn. lia.
Qed.
End clocks.

Section distincts.
Context `{NN : Num} (E : env) (plugins : list factory).
Notation C := (mp_cls E plugins).
Context (K : str -> Prop) (key : str).
Notation alien := (not_distincts K key).
Notation mine s := (p_plug s !! key).
Notation clk s := (w_clk (p_w s)).

Record DI (s : mst) : Prop := {
  di_c : forall c, is_Some (p_counter s !! c) -> K c;
  di_m : forall k m, p_meter s !! k = Some m -> me_prefix m = B "stats.meter." /\ me_name m = k;
  di_p : forall k q, p_plug s !! k = Some q -> plug_named k q;
  di_k : forall q, mine s = Some q -> exists d, q = PDist d }.
(** a report: the reading of the clock, the timestamp, what it sends *)
Notation report := (nat * Z * list dp)%type.
Definition reported (q : option plug) (r : report) : Prop :=
  let '(i, ts, l) := r in exists d w, q = Some (PDist d) /\ w_clk w = i /\ fst (dmetric_flush E d ts w) = Ok l.

Fixpoint dgood (g : gen mst) : Prop :=
  match g with
  | GRet | GRaise _ => True
  | GEmit ms k => Forall alien ms /\ dgood k
  | GAct f => forall s, DI s -> DI (fst (f s)) /\ mine (fst (f s)) = mine s /\ (clk s <= clk (fst (f s)))%nat /\
      (dgood (snd (f s)) \/
       (clk s < clk (fst (f s)))%nat /\
       match snd (f s) with GEmit l k => (exists ts, reported (mine s) (clk s, ts, l)) /\ dgood k | _ => False end)
  end.
Definition dlive (g : gen mst) : Prop := dgood g \/ exists ms k, g = GEmit ms k /\ dgood k.
Lemma dgood_pending g : dgood g -> Forall alien (pending g).
Proof using Type.
  induction g as [|e|f IH|ms k IH] using gen_ind'; intros H; cbn [pending]; try constructor.
  destruct H as [H1 H2]. apply Forall_app. auto.
Qed.
Definition goes_on (o : step_out mst) : Prop := match o with Yielded _ g => dlive g | _ => True end.
Definition within (lo hi : nat) (r : report) : Prop := (lo <= fst (fst r) < hi)%nat.
Definition sent (rs : list report) : list dp := concat (map snd rs).
Lemma reported_some q i ts l : reported q (i, ts, l) -> l <> [].
Proof using Type.
  intros (d & w & _ & _ & H) ->. unfold dmetric_flush, now in H. cbn [fst] in H.
  do 4 (destruct (distinct_count _ _); [|discriminate]). discriminate.
Qed.
(** what one step does *)
Definition stepped (g : gen mst) (s s' : mst) (o : step_out mst) : Prop :=
  DI s' /\ goes_on o /\ mine s' = mine s /\ (clk s <= clk s')%nat /\
  exists rs rest, coming o ≡ₚ pending g ++ sent rs ++ rest /\ Forall alien rest /\
    Forall (reported (mine s)) rs /\ Forall (within (clk s) (clk s')) rs.
Lemma quiet g s o : DI s -> goes_on o -> coming o = pending g -> stepped g s s o.
Proof using Type.
  intros H1 H2 H3. split; [exact H1|]. split; [exact H2|]. split; [reflexivity|]. split; [lia|]. exists [], [].
  rewrite H3. unfold sent. cbn [map concat app]. rewrite app_nil_r. split; [reflexivity|]. split; [constructor|]. split; constructor.
Qed.
Lemma gnext_dgood g : forall s s' o, DI s -> dgood g -> gnext g s = (s', o) -> stepped g s s' o.
Proof using Type.
  induction g as [|e|f IH|ms k IH] using gen_ind'; intros s s' o Hi Hg H; cbn [gnext] in H.
  - injection H as <- <-. apply quiet; [exact Hi|exact I|reflexivity].
  - injection H as <- <-. apply quiet; [exact Hi|exact I|reflexivity].
  - cbn [dgood] in Hg. destruct (Hg s Hi) as (H1 & H2 & H3 & H4). clear Hg. specialize (IH s). destruct (f s) as [s1 g1]. cbn [fst snd] in *.
    destruct H4 as [H4|[Hlt H4]].
    + destruct (IH s1 s' o H1 H4 H) as (I1 & I2 & I3 & I4 & rs & rest & J1 & J2 & J3 & J4).
      split; [exact I1|]. split; [exact I2|]. split; [congruence|]. split; [lia|]. exists rs, (pending g1 ++ rest). cbn [pending app].
      split; [rewrite J1; apply Permutation_app_swap_app|].
      split; [apply Forall_app; split; [apply dgood_pending, H4|exact J2]|]. rewrite <- H2. split; [exact J3|].
      eapply Forall_impl; [exact J4|]. unfold within. intros x Hx. lia.
    + destruct g1 as [|e1|f1|l k]; try (destruct H4; fail). destruct H4 as [[ts Hr] Hk].
      destruct l as [|d l]; [exfalso; exact (reported_some _ _ _ _ Hr eq_refl)|]. injection H as <- <-.
      split; [exact H1|]. split; [right; eauto|]. split; [exact H2|]. split; [lia|].
      exists [(clk s, ts, d :: l)], (pending k). unfold sent. cbn [coming pending app map concat snd]. rewrite app_nil_r.
      split; [reflexivity|]. split; [apply dgood_pending, Hk|]. split; (constructor; [|constructor]); [exact Hr|]. unfold within. cbn [fst]. lia.
  - destruct Hg as [Hm Hk]. destruct ms as [|d ms].
    + exact (IH s s' o Hi Hk H).
    + injection H as <- <-. apply quiet; [exact Hi|right; eauto|reflexivity].
Qed.
Lemma gnext_dlive g s s' o : DI s -> dlive g -> gnext g s = (s', o) -> stepped g s s' o.
Proof using Type.
  intros Hi [Hg|(ms & k & -> & Hk)] H; [eapply gnext_dgood; eassumption|].
  destruct ms as [|d ms]; cbn [gnext] in H.
  - exact (gnext_dgood k s s' o Hi Hk H).
  - injection H as <- <-. apply quiet; [exact Hi|right; eauto|reflexivity].
Qed.

(** ** A flush *)
Lemma di_same (s s' : mst) : DI s -> p_counter s' = p_counter s -> p_meter s' = p_meter s -> p_plug s' = p_plug s -> DI s'.
Proof using Type. intros [H1 H2 H3 H4] Hc Hm Hp. split; rewrite ?Hc, ?Hm, ?Hp; assumption. Qed.
Ltac plain := eapply di_same; [eassumption|reflexivity..].
Definition calm (s s' : mst) : Prop := DI s' /\ mine s' = mine s /\ (clk s <= clk s')%nat.
Ltac still := split; [plain|split; [reflexivity|cbn; lia]].
Lemma calm_id s : DI s -> calm s s.
Proof using Type. intros H. split; [exact H|]. split; [reflexivity|lia]. Qed.
Lemma dgood_act f : (forall s, DI s -> calm s (fst (f s)) /\ dgood (snd (f s))) -> dgood (GAct f).
Proof using Type. intros H s Hs. destruct (H s Hs) as ((H1 & H2 & H3) & H4). auto 6. Qed.
Definition dloop (loop : (Z -> gen mst) -> gen mst) : Prop := forall k, (forall n, dgood (k n)) -> dgood (loop k).

(** what visiting one element may do *)
Definition dvisit (s : mst) (r : mst * res (option (list dp * (mst -> mst * res unit)))) : Prop :=
  calm s (fst r) /\
  match snd r with
  | Ok (Some (ms, post)) =>
      (Forall alien ms \/ (clk s < clk (fst r))%nat /\ exists ts, reported (mine s) (clk s, ts, ms)) /\
      forall s2, DI s2 -> calm s2 (fst (post s2))
  | _ => True
  end.
Lemma giter_dgood {X} (xs : list X) u visit k :
  (forall x s, DI s -> dvisit s (visit x s)) -> (forall n, dgood (k n)) -> forall n, dgood (giter xs u visit n k).
Proof using Type.
  intros Hv Hk. induction xs as [|x xs IH]; intros n; cbn [giter dgood]; intros s Hs.
  - destruct (u s); cbn [fst snd]; (split; [exact Hs|]; split; [reflexivity|]; split; [lia|]; left); auto. exact I.
  - destruct (negb (u s)); [split; [exact Hs|]; split; [reflexivity|]; split; [cbn; lia|]; left; exact I|].
    specialize (Hv x s Hs). destruct (visit x s) as [s' [[[ms post]|]|e]]; destruct Hv as [(H1 & H2 & H3) H4]; cbn [fst snd] in *;
      (split; [exact H1|]; split; [exact H2|]; split; [exact H3|]); [|left; apply IH|left; exact I].
    destruct H4 as [H4 H5].
    assert (Hrest : dgood (GAct (fun s2 => match post s2 with (s3, Ok _) => (s3, giter xs u visit (n + 1) k) | (s3, Exn e) => (s3, GRaise e) end))).
    { apply dgood_act. intros s2 Hs2. specialize (H5 s2 Hs2). destruct (post s2) as [s3 [[]|e]]; cbn [fst snd] in *;
        (split; [exact H5|]); [apply IH|exact I]. }
    destruct H4 as [H4|[H4 H6]]; [left; split; [exact H4|exact Hrest]|right; split; [exact H4|]; split; [exact H6|exact Hrest]].
Qed.
Lemma gdict_dgood {V} (d : mst -> gmap str V) visit :
  (forall k v s, DI s -> d s !! k = Some v -> dvisit s (visit k v s)) -> dloop (gdict E d visit).
Proof using Type.
  intros Hv k Hk. apply dgood_act. intros s Hs. unfold gdict.
  destruct (dict_keys E (d s) (p_w s)) as [ks w] eqn:Ew. assert (Hw : w_clk w = clk s) by (injection Ew as _ <-; reflexivity).
  cbn [fst snd]. split; [split; [plain|split; [reflexivity|cbn; lia]]|].
  apply giter_dgood; [|exact Hk]. intros k1 s1 Hs1. destruct (d s1 !! k1) as [v|] eqn:Ev; [exact (Hv k1 v s1 Hs1 Ev)|].
  split; [apply calm_id, Hs1|exact I].
Qed.
Lemma timed_dgood loop k : dloop loop -> (forall n x, dgood (k n x)) -> dgood (timed E loop k).
Proof using Type.
  intros Hl Hk. apply dgood_act. intros s Hs. unfold now. cbn [fst snd]. split; [still|].
  apply Hl. intros n. apply dgood_act. intros s1 Hs1. cbn [fst snd]. split; [still|]. apply Hk.
Qed.
Lemma no_post_d (s2 : mst) : DI s2 -> calm s2 (fst (no_post s2)).
Proof using Type. apply calm_id. Qed.
Lemma foreign d : (forall x, dp_name d <> B "stats.pdistinct." ++ x) -> alien d.
Proof using Type. intros H. left. intros (suf & _ & Hs). exact (H _ Hs). Qed.
Ltac odd := apply foreign; let x := fresh in let H := fresh in intros x H; discriminate H.

Lemma counter_dloop i ts : dloop (mp_flush_counter E i ts).
Proof using Type.
  apply gdict_dgood. intros k n s Hs Hn.
  assert (Hi : calm s (set_counter (<[k := n0]> (p_counter s)) s)).
  { split; [|split; [reflexivity|cbn; lia]]. destruct Hs as [H1 H2 H3 H4]. split; cbn; auto. intros k1 Hk. destruct (decide (k = k1)) as [<-|Hne]; [eauto|].
    rewrite lookup_insert_ne in Hk by auto. auto. }
  unfold dvisit. destruct (i =? 0); cbn [fst snd]; (split; [exact Hi|]); [exact I|]. split; [|exact no_post_d].
  left. each; [|unfold count_prefix; odd].
  right. unfold stats_prefix. do 3 eexists. split; [apply (di_c s Hs); eauto|reflexivity].
Qed.
Lemma timer_dloop p ts : dloop (mp_flush_timer E p ts).
Proof using Type.
  apply gdict_dgood. intros k ds s Hs Hn. unfold dvisit. destruct ds as [|x ds]; [split; [apply calm_id, Hs|exact I]|].
  assert (Hi : calm s (set_timer (<[k := []]> (p_timer s)) s)) by still.
  destruct (timer_stats p (x :: ds)) as [[[[[mean upper] tupper] lower] count]|e] eqn:Et; cbn [fst snd]; (split; [exact Hi|]).
  - split; [|exact no_post_d]. left. unfold timer_prefix. each; odd.
  - exact I.
Qed.
Lemma gauge_dloop ts : dloop (mp_flush_gauge ts).
Proof using Type.
  intros k Hk. apply dgood_act. intros s Hs. cbn [fst snd]. split; [apply calm_id, Hs|]. apply giter_dgood; [|exact Hk].
  intros [v k1] s1 Hs1. split; [apply calm_id, Hs1|]. cbn [fst snd]. split; [|exact no_post_d]. left.
  unfold gauge_prefix. each. odd.
Qed.
Lemma meter_dloop ts : dloop (flush_meter E ts).
Proof using Type.
  apply gdict_dgood. intros k m s Hs Hn. destruct (di_m s Hs k m Hn) as [Hp Hk]. unfold dvisit.
  destruct (meter_report_named m ts) as [N1 N2]. pose proof (report_names m ts) as N3.
  destruct (meter_report m ts) as [m' r] eqn:Er. cbn [fst snd] in *.
  assert (Hi : calm s (set_meter (<[k := m']> (p_meter s)) s)).
  { split; [|split; [reflexivity|cbn; lia]]. destruct Hs as [H1 H2 H3 H4]. split; cbn; auto. intros k1 m1 Hk1. destruct (decide (k = k1)) as [<-|Hne].
    - rewrite lookup_insert in Hk1. injection Hk1 as <-. split; congruence.
    - rewrite lookup_insert_ne in Hk1 by auto. eauto. }
  destruct r as [ms|e]; cbn [fst snd]; (split; [exact Hi|]); [|exact I]. split; [|exact no_post_d].
  left. eapply Forall_impl; [exact (N3 ms eq_refl)|].
  intros d (suf & Hsuf & Hd'). apply foreign. intros x Hx. rewrite Hd', Hp in Hx. discriminate Hx.
Qed.
Lemma flush_names d ts w l : fst (dmetric_flush E d ts w) = Ok l -> dm_prefix d = B "stats.pdistinct." ->
  Forall (fun x => distinct_names (dm_name d) (dp_name x)) l.
Proof using Type.
  unfold dmetric_flush, now. cbn [fst]. do 4 (destruct (distinct_count _ _); [|discriminate]). intros [= <-] ->.
  each; cbn [dp_name]; eexists; (split; [|reflexivity]); cbn; auto.
Qed.
Lemma distinct_tail k n : distinct_names k n -> exists x, ~ In "."%char x /\ n = B "stats.pdistinct." ++ k ++ "."%char :: x.
Proof using Type.
  intros (suf & Hin & ->). destruct Hin as [<-|[<-|[<-|[<-|[]]]]];
    [exists (B "count")|exists (B "count_1day")|exists (B "count_1hour")|exists (B "count_1min")]; (split; [|reflexivity]); intros H; apply has_In in H; discriminate.
Qed.
Lemma other_distinct k d : k <> key -> distinct_names k (dp_name d) -> alien d.
Proof using Type.
  intros Hne H. left. intros H'. apply distinct_tail in H, H'. destruct H as (a & Ha & H), H' as (b & Hb & H').
  rewrite H in H'. apply app_inv_head in H'. eapply last_dot in H'; [|exact Ha|exact Hb]. destruct H' as [H' _]. congruence.
Qed.
Lemma sli_flush_clk x ts w : w_clk (snd (sli_flush E x ts w)) = w_clk w.
Proof using Type. unfold sli_flush. reflexivity. Qed.
Lemma plug_dloop ts : dloop (flush_plugins E ts).
Proof using Type.
  apply gdict_dgood. intros k q s Hs Hn. pose proof (di_p s Hs k q Hn) as Hq. unfold dvisit. destruct q as [x|d]; cbn [plug_flush].
  - pose proof (sli_flush_named E x ts (p_w s)) as N. pose proof (sli_flush_clk x ts (p_w s)) as Hw.
    assert (Hms : forall x' l w, sli_flush E x ts (p_w s) = (x', l, w) -> Forall alien l).
    { intros x' l w Hr. assert (Hf : Forall (fun d => named (B "stats.SLI.") d \/ named (B "stats.pdistinct.") d) l).
      { eapply (fp_named E ts k (PSli x) (p_w s) l (PSli x') w Hq). unfold FlushComp.fp. cbn [plug_flush]. rewrite Hr. reflexivity. }
      clear Hf. unfold sli_flush in Hr. destruct (dict_keys _ _ _) as [ks w1]. injection Hr as _ <- _. cbn [plug_named] in Hq. rewrite Hq.
      assert (Hodd : forall y v, alien (DP ((B "stats.SLI." ++ k) ++ y) v ts)).
      { intros y v. apply foreign. intros z Hz. cbn [dp_name] in Hz. rewrite <- app_assoc in Hz. discriminate Hz. }
      apply Forall_app. split; [|each; apply Hodd]. clear N Hw. induction ks as [|c ks IH]; cbn [flat_map]; [constructor|].
      apply Forall_app. split; [|exact IH]. repeat (match goal with |- context [match ?e with _ => _ end] => destruct e end); each; apply Hodd. }
    destruct (sli_flush E x ts (p_w s)) as [[x' l] w]. cbn [fst snd] in *. specialize (Hms _ _ _ eq_refl).
    assert (Hk : k <> key). { intros ->. destruct (di_k s Hs _ Hn) as [d [=]]. }
    split; [|split; [left; exact Hms|exact no_post_d]]. split; [|split; [cbn; apply lookup_insert_ne, Hk|cbn; lia]].
    destruct Hs as [H1 H2 H3 H4]. split; cbn; auto.
    + intros k1 q1 Hk1. destruct (decide (k = k1)) as [<-|Hne].
      * rewrite lookup_insert in Hk1. injection Hk1 as <-. cbn [plug_named] in *. congruence.
      * rewrite lookup_insert_ne in Hk1 by auto. eauto.
    + intros q1. rewrite lookup_insert_ne by exact Hk. apply H4.
  - assert (Hw : w_clk (snd (dmetric_flush E d ts (p_w s))) = S (clk s)) by reflexivity.
    pose proof (flush_names d ts (p_w s)) as N.
    destruct (dmetric_flush E d ts (p_w s)) as [r w] eqn:Er. cbn [fst snd] in *.
    assert (Hi : calm s (set_plug (<[k := PDist d]> (p_plug s)) (set_w w s))).
    { assert (Hm : <[k := PDist d]> (p_plug s) = p_plug s) by (apply insert_id, Hn). rewrite Hm.
      split; [plain|]. split; [reflexivity|cbn; lia]. }
    destruct r as [ms|e]; cbn [fst snd]; (split; [exact Hi|]); [|exact I]. split; [|exact no_post_d].
    destruct Hq as (Hp & Hk & Hh). destruct (decide (k = key)) as [->|Hne].
    + right. split; [cbn; lia|]. exists ts, d, (p_w s). split; [exact Hn|]. split; [reflexivity|]. rewrite Er. reflexivity.
    + left. eapply Forall_impl; [exact (N ms eq_refl Hp)|]. intros x Hx. apply (other_distinct k); [exact Hne|]. rewrite Hk in Hx. exact Hx.
Qed.
Lemma summary_dgood n per ts : dgood (flush_summary E C n per ts).
Proof using Type.
  cbn [flush_summary dgood]. split; [each; odd|]. apply (dgood_act (fun s => _)). intros s Hs. set (pm := list_to_map per).
  destruct (dict_keys E pm (p_w s)) as [names w] eqn:Ew. assert (Hw : w_clk w = clk s) by (injection Ew as _ <-; reflexivity).
  cbn [fst snd]. split; [split; [plain|split; [reflexivity|cbn; lia]]|].
  apply giter_dgood.
  - intros name s1 Hs1. destruct (pm !! name) as [[ev du]|]; [|split; [apply calm_id, Hs1|exact I]].
    split; [apply calm_id, Hs1|]. cbn [summary_kind fst snd]. split; [left; each; odd|].
    intros s2 Hs2. cbn [fst]. still.
  - intros _. apply dgood_act. intros s1 Hs1. cbn [fst snd]. split; [still|]. apply gdict_dgood.
    + intros t du s2 Hs2 Ht. unfold summary_type, dvisit. destruct (p_btype s2 !! t); cbn [fst snd]; (split; [apply calm_id, Hs2|]); [|exact I].
      split; [left; each; odd|]. intros s3 Hs3. destruct (p_btype s3 !! t); cbn [fst]; [still|apply calm_id, Hs3].
    + intros _. apply dgood_act. intros s2 Hs2. cbn [fst snd]. split; [still|exact I].
Qed.
Lemma flush_dgood i p : dgood (flush E C i p).
Proof using Type.
  apply (dgood_act (fun s => _)). intros s Hs. unfold now. cbn [fst snd]. split; [still|].
  destruct (ntrunc _) as [ts|e]; [|exact I].
  apply timed_dgood; [apply counter_dloop|intros]. apply timed_dgood; [apply timer_dloop|intros]. apply timed_dgood; [apply gauge_dloop|intros].
  apply timed_dgood; [apply meter_dloop|intros]. apply timed_dgood; [apply plug_dloop|intros]. apply summary_dgood.
Qed.


(** ** Receiving *)
Context (Hpd : plugin_table plugins !! B "pd" = Some FDistinct).
Notation receive := (receive E plugins).
Definition speaks (m : str) : Prop := (forall c fields, typed_line m (B "c") c fields -> K c) /\ (forall fields, ~ typed_line m (B "sli") key fields).
Notation fresh := (empty_counter E).
Definition metric (d : distinct) : plug := PDist (DMetric key (B "stats.pdistinct.") d).
Lemma table_types t f : plugin_table plugins !! t = Some f -> t = B "sli" \/ t = B "pd".
Proof using Type.
  clear Hpd. unfold plugin_table. assert (H : forall m : gmap str factory, (forall f, m !! t = Some f -> t = B "sli" \/ t = B "pd") ->
    fold_left (fun m f => <[factory_type f := f]> m) plugins m !! t = Some f -> t = B "sli" \/ t = B "pd").
  { induction plugins as [|g l IH]; intros m Hm; [apply Hm|]. cbn [fold_left]. apply IH. intros f1.
    destruct (decide (factory_type g = t)) as [<-|Hne]; [intros _; destruct g; cbn; auto|]. rewrite lookup_insert_ne by exact Hne. apply Hm. }
  apply H. intros f1. rewrite lookup_empty. discriminate.
Qed.
(** a line that is not the metric's *)
Lemma other_line m s : speaks m -> (forall item, ~ distinct_item m key item) -> mine (receive m s) = mine s.
Proof using Type.
  intros [_ Hs] Hn. destruct (decode m) as [[[t raw] fields]|] eqn:Hd.
  2:{ unfold ReceiveFacts.receive. rewrite process_proj by apply proj_plug. rewrite Hd. reflexivity. }
  destruct (decide (key = normalize_key raw)) as [Hk|Hne]; [|eapply plug_step; eassumption].
  assert (Hl : typed_line m t key fields) by (rewrite Hk; apply typed_line_decode; eauto).
  destruct (decode_cons _ _ _ _ Hd) as (f0 & l & ->).
  destruct (str_eqb t (B "c") || str_eqb t (B "ms") || str_eqb t (B "g") || str_eqb t (B "m")) eqn:Eb.
  { destruct (isolation E plugins m t key (f0 :: l) s Hl) as (_ & _ & _ & _ & Hi). apply Hi. left. apply builtin_bool, Eb. }
  destruct (plugin_table plugins !! t) as [f|] eqn:Hf.
  - exfalso. destruct (table_types t f Hf) as [-> | ->]; [eapply Hs; exact Hl|eapply Hn; eexists; exact Hl].
  - unfold ReceiveFacts.receive. rewrite process_proj by apply proj_plug. rewrite Hd.
    assert (known_type C t = false) as ->; [|reflexivity].
    unfold known_type. rewrite Eb. cbn [c_plugins mp_cls]. rewrite Hf. reflexivity.
Qed.
(** a line of the metric *)
Lemma item_line m item s : (forall q, mine s = Some q -> exists d, q = PDist d) -> distinct_item m key item -> exists i w, (clk s <= i < clk (receive m s))%nat /\
  mine (receive m s) = match mine s with
                       | None => Some (metric (distinct_add (fresh w) (e_clock E i) item))
                       | Some (PDist d) => Some (PDist (DMetric (dm_name d) (dm_prefix d) (distinct_add (dm_counter d) (e_clock E i) item)))
                       | Some q => mine (receive m s)
                       end.
Proof using Hpd K.
  intros Hq [fs Hl]. apply typed_line_decode in Hl. destruct Hl as (raw & Hd & Hk).
  assert (Hb : ~ builtin (B "pd")) by (rewrite builtin_bool; vm_compute; discriminate).
  pose proof (plug_one E plugins m (B "pd") raw (item :: fs) s FDistinct Hd Hb Hpd) as H. cbn zeta in H. rewrite Hk in H.
  exists (S (clk s)), (snd (now E (p_w s))). split.
  - split; [lia|]. unfold ReceiveFacts.receive. rewrite process_decode, Hd, process_message_handler. unfold now.
    assert (known_type C (B "pd") = true) as -> by (apply known_type_iff; right; cbn; eauto).
    assert (Hh : forall s1, handler E C m (B "pd") (normalize_key raw) (item :: fs) s1 = process_plugin_metric E C (B "pd") (normalize_key raw) (item :: fs) s1) by reflexivity.
    unfold bnd at 1. rewrite Hh. set (s1 := set_w _ s). assert (H1 : clk s1 = S (clk s)) by reflexivity.
    assert (H3 : (S (clk s1) <= clk (fst (process_plugin_metric E C (B "pd") (normalize_key raw) (item :: fs) s1)))%nat).
    { assert (Hp : p_plug s1 = p_plug s) by reflexivity. clearbody s1. clear Hh H. unfold process_plugin_metric, bnd, get_. cbv beta iota. rewrite Hp, Hk.
      destruct (mine s) as [q|] eqn:Eq.
      - unfold ret. cbv beta iota. rewrite Hp, Eq. destruct (Hq q eq_refl) as [d ->]. cbn [plug_process dmetric_process]. unfold now.
        cbn [fst snd p_w set_plug set_w w_clk]. lia.
      - cbn [mp_cls c_plugins]. rewrite Hpd. cbn [build_metric]. unfold dmetric_new. pose proof (new_clk E 32 32 (p_w s1)) as Hc.
        destruct (distinct_new E 32 32 (p_w s1)) as [d w']. cbn [fst snd] in Hc. cbv beta iota. cbn [p_plug set_plug set_w]. rewrite lookup_insert.
        cbn [plug_process dmetric_process]. unfold now. cbn [fst snd p_w set_plug set_w w_clk]. lia. }
    destruct (process_plugin_metric E C (B "pd") (normalize_key raw) (item :: fs) s1) as [s2 [[]|e]]; cbn [fst] in *; [|lia].
    pose proof (onward_finish E (B "pd") (e_clock E (clk s)) s2) as Hf. rewrite H1 in H3. exact (Nat.lt_le_trans _ _ _ H3 Hf).
  - rewrite H. destruct (mine s) as [[x|d]|]; [reflexivity|reflexivity|].
    cbn [build_metric]. unfold dmetric_new. unfold empty_counter. set (w := snd (now E (p_w s))). pose proof (new_clk E 32 32 w) as Hc.
    destruct (distinct_new E 32 32 w) as [d w']. cbn [fst snd] in *. cbn [plug_process dmetric_process]. unfold now. cbn [fst snd].
    rewrite Hc. reflexivity.
Qed.

Lemma di_receive m s : speaks m -> DI s -> DI (receive m s).
Proof using Hpd K.
  intros [Hm Hs] Hi. pose proof Hi as [H1 H2 H3 H4]. split.
  - intros k Hk. rewrite counter_step in Hk. unfold counter_view in Hk.
    destruct (decode m) as [[[t raw] fields]|] eqn:Hd; [|apply H1; exact Hk].
    destruct (str_eqb t (B "c") && str_eqb (normalize_key raw) k) eqn:Eb; [|apply H1; exact Hk].
    apply andb_prop in Eb as [E1 E2]. apply str_eqb_eq in E1, E2. subst t k. apply (Hm _ fields).
    apply typed_line_decode. exists raw. auto.
  - intros k me Hk. rewrite meter_one in Hk. destruct (view (B "m") m k); [|eapply H2; exact Hk].
    destruct (p_meter s !! k) as [m0|] eqn:Em.
    + injection Hk as <-. apply H2 in Em. exact Em.
    + injection Hk as <-. unfold meter_new, now. cbn. auto.
  - intros k q Hk. apply plug_receive in Hk.
    destruct Hk as [Hk|(t & raw & fields & f & Hd & -> & Hb & Hf & [(p0 & w & Hp & ->)|(q0 & w & w' & _ & Hq & ->)])].
    + apply H3. exact Hk.
    + apply plug_process_named, H3, Hp.
    + apply plug_process_named. eapply build_named. exact Hq.
  - intros q Hq. destruct (decode m) as [[[t raw] fields]|] eqn:Hd.
    2:{ rewrite other_line in Hq; [eauto|split; assumption|]. intros item [fs Hl]. apply typed_line_decode in Hl. destruct Hl as (raw & Hl & _). congruence. }
    destruct (decode_cons _ _ _ _ Hd) as (f0 & l & ->).
    destruct (decide (t = B "pd" /\ normalize_key raw = key)) as [[-> Hk]|Hne].
    + destruct (item_line m f0 s H4) as (i & w & _ & Hr); [exists l; apply typed_line_decode; eauto|]. rewrite Hr in Hq.
      destruct (mine s) as [p|] eqn:Ep; [|injection Hq as <-; unfold metric; eauto]. destruct (H4 p eq_refl) as [d ->]. injection Hq as <-. eauto.
    + rewrite other_line in Hq; [eauto|split; assumption|]. intros item [fs Hl]. apply typed_line_decode in Hl. destruct Hl as (raw' & Hl & Hk).
      rewrite Hd in Hl. injection Hl as -> -> _ _. auto.
Qed.
Lemma di_init : DI mp_init.
Proof using Type. split; cbn; intros; rewrite lookup_empty in *; [destruct H; discriminate|discriminate..]. Qed.

(** ** Every schedule *)
Definition everything (y : sys) : list dp := y_out y ++ flat_map pending (y_live y ++ y_gone y).
(** the estimates of a report about the items of [hist] that came before it *)
Definition estimates_of (w : world) (hist : list (nat * str)) (r : report) : Prop :=
  let '(i, ts, l) := r in four_estimates key (fresh w) (at_times E (before i hist)) (e_clock E i) ts l.
Record kept (h : list str) (y : sys) (w : world) (hist : list (nat * str)) (rs : list report) (rest : list dp) : Prop := {
  kt_picks : picks (fun m => distinct_item m key) h (map snd hist);
  kt_sorted : StronglySorted lt (map fst hist);
  kt_past : Forall (fun x => (fst x < clk (y_st y))%nat) hist;
  kt_state : mine (y_st y) = match hist with [] => None | _ => Some (metric (adds (at_times E hist) (fresh w))) end;
  kt_all : everything y ≡ₚ sent rs ++ rest;
  kt_rest : Forall alien rest;
  kt_reports : Forall (estimates_of w hist) rs;
  kt_done : Forall (fun r => (fst (fst r) < clk (y_st y))%nat) rs;
  kt_none : hist = [] -> rs = [] }.
Definition may (e : event) : Prop := match e with Recv m => speaks m | _ => True end.
Lemma before_all i hist : Forall (fun x => (fst x < i)%nat) hist -> before i hist = hist.
Proof using Type.
  clear Hpd. induction 1 as [|x hist Hx _ IH]; [reflexivity|]. unfold before in *. cbn [List.filter]. rewrite IH.
  assert ((fst x <? i)%nat = true) as -> by (apply Nat.ltb_lt; exact Hx). reflexivity.
Qed.
Lemma before_snoc i hist x : (i <= fst x)%nat -> before i (hist ++ [x]) = before i hist.
Proof using Type.
  clear Hpd. intros H. unfold before. rewrite List.filter_app. cbn [List.filter]. assert ((fst x <? i)%nat = false) as -> by (apply Nat.ltb_ge; exact H). apply app_nil_r.
Qed.
Lemma estimates_reported w hist i ts l : Forall (fun x => (fst x < i)%nat) hist ->
  reported (Some (metric (adds (at_times E hist) (fresh w)))) (i, ts, l) -> estimates_of w hist (i, ts, l).
Proof using Type.
  intros Hh (d & w1 & [= <-] & Hw & Hf). unfold estimates_of. rewrite (before_all i hist Hh). unfold four_estimates.
  unfold dmetric_flush, now in Hf. cbn [fst dm_counter dm_prefix dm_name] in Hf. rewrite Hw in Hf.
  destruct (distinct_count _ n0) as [all|]; [|discriminate]. destruct (distinct_count _ (nsub _ (nofZ 60))) as [mi|]; [|discriminate].
  destruct (distinct_count _ (nsub _ (nofZ 3600))) as [ho|]; [|discriminate]. destruct (distinct_count _ (nsub _ (nofZ 86400))) as [da|]; [|discriminate].
  exists all, da, ho, mi. injection Hf as <-. auto 6.
Qed.
Lemma kept_step h y w hist rs rest s' rs1 more (y' : sys) : kept h y w hist rs rest ->
  mine s' = mine (y_st y) -> (clk (y_st y) <= clk s')%nat -> Forall (reported (mine (y_st y))) rs1 -> Forall (within (clk (y_st y)) (clk s')) rs1 ->
  Forall alien more -> y_st y' = s' -> everything y' ≡ₚ everything y ++ sent rs1 ++ more ->
  exists rs' rest', kept h y' w hist rs' rest'.
Proof using Type.
  intros [H1 H2 H3 H4 H5 H6 H7 H8 H9] Hm Hc Hr Hw Hmore <- He.
  exists (rs ++ rs1), (rest ++ more). split; try assumption.
  - eapply Forall_impl; [exact H3|]. cbn. intros x Hx. lia.
  - rewrite Hm. exact H4.
  - rewrite He, H5. unfold sent. rewrite map_app, concat_app, <- !app_assoc. apply Permutation_app_head, Permutation_app_swap_app.
  - apply Forall_app. auto.
  - apply Forall_app. split; [exact H7|]. rewrite Forall_forall in Hr, Hw |- *. intros [[i ts] l] Hin. specialize (Hr _ Hin). specialize (Hw _ Hin).
    unfold within in Hw. cbn [fst] in Hw. rewrite H4 in Hr. destruct hist as [|x hist]; [destruct Hr as (d & w1 & Hd & _); discriminate|].
    apply estimates_reported; [|exact Hr]. eapply Forall_impl; [exact H3|]. cbn. intros z Hz. lia.
  - apply Forall_app. split; [eapply Forall_impl; [exact H8|]; cbn; intros x Hx; lia|]. eapply Forall_impl; [exact Hw|]. unfold within. cbn. intros x Hx. lia.
  - intros ->. rewrite (H9 eq_refl). destruct rs1 as [|[[i ts] l] rs1]; [reflexivity|]. apply Forall_cons in Hr as [Hr _]. rewrite H4 in Hr.
    destruct Hr as (d & w1 & Hd & _). discriminate.
Qed.
Lemma sorted_snoc (l : list nat) i : StronglySorted lt l -> Forall (fun x => x < i)%nat l -> StronglySorted lt (l ++ [i]).
Proof using Type.
  clear Hpd. induction 1 as [|x l Hs IH Hx]; intros Hf; cbn; [repeat constructor|]. apply Forall_cons in Hf as [H1 H2]. constructor; [auto|].
  apply Forall_app. split; [exact Hx|]. repeat constructor. exact H1.
Qed.

Lemma distincts_kept es : Forall may es ->
  let y := sys_run E plugins es sys_init in
  DI (y_st y) /\ Forall dlive (y_live y) /\ exists w hist rs rest, kept (lines es) y w hist rs rest.
Proof using Hpd K.
  intros Hes y. subst y. induction es as [|e es IH] using rev_ind.
  - split; [apply di_init|]. split; [constructor|]. exists world0, [], [], []. split; try constructor; reflexivity.
  - apply Forall_app in Hes as [Hes He]. apply Forall_cons in He as [He _].
    destruct (IH Hes) as (T1 & T2 & w & hist & rs & rest & Hc). clear IH.
    unfold sys_run in *. rewrite fold_left_app. cbn [fold_left]. set (y := fold_left (sys_step E plugins) es sys_init) in *.
    assert (Hl : lines (es ++ [e]) = lines es ++ match e with Recv m => [m] | _ => [] end).
    { unfold lines. rewrite flat_map_app. cbn [flat_map]. rewrite app_nil_r. reflexivity. }
    rewrite Hl. clear Hl. destruct e as [m|i p|i|i]; cbn [sys_step may] in *; rewrite ?app_nil_r.
    + split; [apply di_receive; assumption|]. split; [exact T2|]. destruct Hc as [H1 H2 H3 H4 H5 H6 H7 H8 H9].
      destruct (picks_snoc _ _ _ m H1) as [P1 P2]. pose proof (receive_clk E plugins m (y_st y)) as Hclk.
      assert (Hex : (exists item, distinct_item m key item) \/ forall item, ~ distinct_item m key item).
      { destruct (decode m) as [[[t raw] fields]|] eqn:Hd.
        2:{ right. intros item [fs Hl]. apply typed_line_decode in Hl. destruct Hl as (raw & Hl & _). congruence. }
        destruct (decode_cons _ _ _ _ Hd) as (f0 & l & ->).
        destruct (decide (t = B "pd" /\ normalize_key raw = key)) as [[-> Hk]|Hne].
        - left. exists f0, l. apply typed_line_decode. eauto.
        - right. intros item [fs Hl]. apply typed_line_decode in Hl. destruct Hl as (raw' & Hl & Hk). rewrite Hd in Hl. injection Hl as -> -> _ _. auto. }
      destruct Hex as [[item Hit]|Hno].
      * destruct (item_line m item (y_st y) (di_k _ T1) Hit) as (i & w1 & Hi & Hr).
        assert (Hw : exists w2, mine (receive m (y_st y)) = Some (metric (adds (at_times E (hist ++ [(i, item)])) (fresh w2))) /\ (hist <> [] -> w2 = w)).
        { rewrite Hr, H4. destruct hist as [|x hist].
          - exists w1. split; [reflexivity|congruence].
          - exists w. split; [|auto]. unfold metric. cbn [dm_name dm_prefix dm_counter]. unfold at_times. rewrite map_app. cbn [map fst snd].
            rewrite adds_snoc. reflexivity. }
        destruct Hw as (w2 & Hw & Hsame). exists w2, (hist ++ [(i, item)]), rs, rest. split; cbn [y_st] in *.
        -- rewrite map_app. apply P1, Hit.
        -- rewrite map_app. apply sorted_snoc; [exact H2|]. rewrite Forall_map. eapply Forall_impl; [exact H3|]. cbn. intros x Hx. lia.
        -- apply Forall_app. split; [eapply Forall_impl; [exact H3|]; cbn; intros x Hx; lia|]. repeat constructor. cbn. lia.
        -- rewrite Hw. destruct (hist ++ [(i, item)]) eqn:Eh; [|reflexivity]. apply app_eq_nil in Eh as [_ [=]].
        -- exact H5.
        -- exact H6.
        -- destruct (decide (hist = [])) as [->|Hne]; [rewrite H9 by reflexivity; constructor|]. rewrite (Hsame Hne).
           rewrite Forall_forall in H7, H8 |- *. intros [[j ts] l] Hin. specialize (H7 _ Hin). specialize (H8 _ Hin). cbn [fst] in H8.
           unfold estimates_of in *. rewrite before_snoc; [exact H7|]. cbn. lia.
        -- eapply Forall_impl; [exact H8|]. cbn. intros x Hx. lia.
        -- intros Hx. apply app_eq_nil in Hx as [_ [=]].
      * exists w, hist, rs, rest. split; try assumption; cbn [y_st].
        -- apply P2. exact Hno.
        -- eapply Forall_impl; [exact H3|]. cbn. intros x Hx. lia.
        -- rewrite (other_line m (y_st y) He Hno). exact H4.
        -- eapply Forall_impl; [exact H8|]. cbn. intros x Hx. lia.
    + split; [exact T1|]. split; [apply Forall_app; split; [exact T2|]; constructor; [|constructor]; left; apply flush_dgood|].
      destruct Hc as [H1 H2 H3 H4 H5 H6 H7 H8 H9]. exists w, hist, rs, rest. split; try assumption.
      unfold everything in *. cbn [y_out y_live y_gone]. rewrite <- H5. rewrite !flat_map_app. cbn [flat_map].
      assert (Hp : pending (flush E C i p) = []) by reflexivity. rewrite Hp. cbn [app]. rewrite app_nil_r. reflexivity.
    + destruct (y_live y !! i) as [g|] eqn:Hg; [|eauto 8].
      assert (Hgl : dlive g) by (rewrite Forall_lookup in T2; eapply T2; exact Hg).
      destruct (gnext g (y_st y)) as [s' o] eqn:Hn.
      destruct (gnext_dlive g _ _ _ T1 Hgl Hn) as (I1 & I2 & I3 & I4 & rs1 & more & J1 & J2 & J3 & J4).
      destruct o as [d g'| |x]; cbn [y_st y_live goes_on coming] in *; (split; [exact I1|]).
      * split; [apply Forall_insert; eauto|]. exists w, hist.
        eapply (kept_step _ y w hist rs rest s' rs1 more); try reflexivity; try eassumption.
        unfold everything. cbn [y_out y_live y_gone]. rewrite !flat_map_app, (delete_pending _ _ _ Hg), (insert_pending _ _ _ g' Hg).
        transitivity (y_out y ++ ((d :: pending g') ++ flat_map pending (delete i (y_live y))) ++ flat_map pending (y_gone y)).
        { rewrite <- app_assoc. reflexivity. }
        rewrite J1. rewrite <- !app_assoc. apply Permutation_app_head, Permutation_app_head.
        rewrite (app_assoc (sent rs1) more), Permutation_app_comm, <- !app_assoc. reflexivity.
      * split; [apply Forall_delete; exact T2|]. exists w, hist.
        eapply (kept_step _ y w hist rs rest s' rs1 more); try reflexivity; try eassumption.
        unfold everything. cbn [y_out y_live y_gone]. rewrite !flat_map_app, (delete_pending _ _ _ Hg).
        apply Permutation_nil in J1. apply app_eq_nil in J1 as [-> J1]. rewrite J1, app_nil_r. reflexivity.
      * split; [apply Forall_delete; exact T2|]. exists w, hist.
        eapply (kept_step _ y w hist rs rest s' rs1 more); try reflexivity; try eassumption.
        unfold everything. cbn [y_out y_live y_gone]. rewrite !flat_map_app, (delete_pending _ _ _ Hg).
        apply Permutation_nil in J1. apply app_eq_nil in J1 as [-> J1]. rewrite J1, app_nil_r. reflexivity.
    + destruct (y_live y !! i) as [g|] eqn:Hg; [|eauto 8]. cbn [y_st y_live]. split; [exact T1|]. split; [apply Forall_delete; exact T2|].
      destruct Hc as [H1 H2 H3 H4 H5 H6 H7 H8 H9]. exists w, hist, rs, rest. split; try assumption.
      unfold everything in *. cbn [y_out y_live y_gone]. rewrite <- H5, !flat_map_app, (delete_pending _ _ _ Hg). cbn [flat_map].
      rewrite app_nil_r. apply Permutation_app_head. rewrite (Permutation_app_comm (pending g)), <- app_assoc.
      apply Permutation_app_head. apply Permutation_app_comm.
Qed.
End distincts.
