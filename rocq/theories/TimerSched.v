(** The durations of a timer under every interleaving of receiving and flushing: they are cut,
    in order of arrival, into the batches the flushes take and what is still stored, and each
    batch is reported once, by five datapoints of its own. *)
From Verif Require Import Base StrFacts Num Env Stats Glob Metrics Gen GenFacts Processor
  LineSpec LineFacts FloatFacts ProcFacts ProcSpec ReceiveFacts ReceiveFacts2 ReceiveFacts3 PlugFacts
  Sched FlushInv FlushOk SchedFacts StepFacts BlockFacts TimerFacts FlushSpec FlushParts SeriesFacts.

(** ** What the theorems speak about *)
Section spec.
Context `{NN : Num}.
(** the five datapoints made of [timer_stats] of the durations [ds] *)
Definition summarised (key : str) (p ts : Z) (ds : list num) (l : list dp) : Prop :=
  exists mean upper tupper lower count, timer_stats p ds = Ok (mean, upper, tupper, lower, count) /\
    l = [DP (B "stats.timers." ++ key ++ B ".count") (VI count) ts;
         DP (B "stats.timers." ++ key ++ B ".lower") (VF lower) ts;
         DP (B "stats.timers." ++ key ++ B ".mean") (VF mean) ts;
         DP (B "stats.timers." ++ key ++ B ".upper") (VF upper) ts;
         DP (B "stats.timers." ++ key ++ B ".upper_" ++ show_Z p) (VF tupper) ts].
(** a datapoint that is not the timer's: it bears none of its names, or it is the
    rate of a counter whose name begins with "timers." *)
Definition alien (K : str -> Prop) (key : str) (d : dp) : Prop :=
  (forall p, ~ timer_series p key (dp_name d)) \/
  exists c v ts, K c /\ d = DP (B "stats." ++ c) (VF v) ts.
(** the flushes started in a schedule *)
Definition begun_with (es : list event) (p : Z) : Prop := exists i, In (Start i p) es.
(** the counters the lines speak of *)
Definition counted (ms : list str) (c : str) : Prop := exists m fields, In m ms /\ typed_line m (B "c") c fields.
End spec.

Section timers.
Context `{NN : Num} (E : env) (plugins : list factory).
Notation C := (mp_cls E plugins).
Context (K : str -> Prop) (key : str).
Notation alien := (alien K key).
Notation durations s := (p_timer s !! key).

Record TI (s : mst) : Prop := {
  ti_c : forall c, is_Some (p_counter s !! c) -> K c;
  ti_m : forall k m, p_meter s !! k = Some m -> me_prefix m = B "stats.meter.";
  ti_p : forall k q, p_plug s !! k = Some q -> plug_named k q }.

(** a flush that takes the durations of the timer goes on to report them, or raises *)
Fixpoint tgood (p : Z) (g : gen mst) : Prop :=
  match g with
  | GRet | GRaise _ => True
  | GEmit ms k => Forall alien ms /\ tgood p k
  | GAct f => forall s, TI s -> TI (fst (f s)) /\
      ((durations (fst (f s)) = durations s /\ tgood p (snd (f s))) \/
       exists ds, durations s = Some ds /\ ds <> [] /\ durations (fst (f s)) = Some [] /\
         match snd (f s) with
         | GEmit l k => (exists ts, summarised key p ts ds l) /\ tgood p k
         | GRaise e => timer_stats p ds = Exn e
         | _ => False
         end)
  end.
(** in the middle of a group *)
Definition tlive (p : Z) (g : gen mst) : Prop := tgood p g \/ exists ms k, g = GEmit ms k /\ tgood p k.

Lemma tgood_pending p g : tgood p g -> Forall alien (pending g).
Proof.
  induction g as [|e|f IH|ms k IH] using gen_ind'; intros H; cbn [pending]; try constructor.
  destruct H as [H1 H2]. apply Forall_app. auto.
Qed.
Definition coming (o : step_out mst) : list dp := match o with Yielded d g => d :: pending g | _ => [] end.
Definition goes_on (p : Z) (o : step_out mst) : Prop := match o with Yielded _ g => tlive p g | _ => True end.
(** what one step takes, and what comes of it *)
Definition moved (p : Z) (s s' : mst) (o : step_out mst) (grp : list dp) : Prop :=
  (durations s' = durations s /\ grp = []) \/
  exists ds, durations s = Some ds /\ ds <> [] /\ durations s' = Some [] /\
    ((exists ts, summarised key p ts ds grp) \/ (grp = [] /\ exists e, o = Raised e /\ timer_stats p ds = Exn e)).

Lemma gnext_tgood p g : forall s s' o, TI s -> tgood p g -> gnext g s = (s', o) ->
  TI s' /\ goes_on p o /\ exists grp rest, coming o ≡ₚ pending g ++ grp ++ rest /\ Forall alien rest /\ moved p s s' o grp.
Proof using Type.
  induction g as [|e|f IH|ms k IH] using gen_ind'; intros s s' o Hi Hg H; cbn [gnext] in H.
  - injection H as <- <-. split; [exact Hi|]. split; [exact I|]. exists [], []. split; [reflexivity|]. split; [constructor|left; auto].
  - injection H as <- <-. split; [exact Hi|]. split; [exact I|]. exists [], []. split; [reflexivity|]. split; [constructor|left; auto].
  - cbn [tgood] in Hg. destruct (Hg s Hi) as [H1 H2]. clear Hg. specialize (IH s). destruct (f s) as [s1 g1]. cbn [fst snd] in *.
    destruct H2 as [[E1 E2]|(ds & D1 & D2 & D3 & D4)].
    + destruct (IH s1 s' o H1 E2 H) as (I1 & I2 & grp & rest & I3 & I4 & I5).
      split; [exact I1|]. split; [exact I2|]. exists grp, (pending g1 ++ rest). cbn [pending app].
      split; [rewrite I3; apply Permutation_app_swap_app|].
      split; [apply Forall_app; split; [apply (tgood_pending p), E2|exact I4]|]. unfold moved in *. rewrite E1 in I5. exact I5.
    + destruct g1 as [|e1|f1|l k]; try (destruct D4; fail).
      * injection H as <- <-. split; [exact H1|]. split; [exact I|]. exists [], []. split; [reflexivity|]. split; [constructor|].
        right. exists ds. repeat split; try assumption. right. split; [reflexivity|]. exists e1. auto.
      * destruct D4 as [[ts Hs] Hk].
        assert (Hl : exists d l', l = d :: l') by (destruct Hs as (? & ? & ? & ? & ? & _ & ->); do 2 eexists; reflexivity).
        destruct Hl as (d & l' & ->). injection H as <- <-. split; [exact H1|]. split; [right; eauto|].
        exists (d :: l'), (pending k). cbn [coming pending app]. split; [reflexivity|]. split; [apply (tgood_pending p), Hk|].
        right. exists ds. repeat split; try assumption. left. eauto.
  - destruct Hg as [Hm Hk]. destruct ms as [|d ms].
    + destruct (IH s s' o Hi Hk H) as (I1 & I2 & grp & rest & I3 & I4 & I5). eauto 8.
    + injection H as <- <-. split; [exact Hi|]. split; [right; eauto|].
      exists [], []. cbn [coming pending]. rewrite !app_nil_r. split; [reflexivity|]. split; [constructor|left; auto].
Qed.
Lemma gnext_tlive p g s s' o : TI s -> tlive p g -> gnext g s = (s', o) ->
  TI s' /\ goes_on p o /\ exists grp rest, coming o ≡ₚ pending g ++ grp ++ rest /\ Forall alien rest /\ moved p s s' o grp.
Proof using Type.
  intros Hi [Hg|(ms & k & -> & Hk)] H; [eapply gnext_tgood; eassumption|].
  destruct ms as [|d ms]; cbn [gnext] in H.
  - destruct (gnext_tgood p k s s' o Hi Hk H) as (I1 & I2 & grp & rest & I3 & I4 & I5). eauto 8.
  - injection H as <- <-. split; [exact Hi|]. split; [right; eauto|].
    exists [], []. cbn [coming pending]. rewrite !app_nil_r. split; [reflexivity|]. split; [constructor|left; auto].
Qed.

(** ** A flush *)
Lemma ti_same (s s' : mst) : TI s -> p_counter s' = p_counter s -> p_meter s' = p_meter s -> p_plug s' = p_plug s -> TI s'.
Proof using Type. intros [H1 H2 H3] Hc Hm Hp. split; rewrite ?Hc, ?Hm, ?Hp; assumption. Qed.
Ltac plain := eapply ti_same; [eassumption|reflexivity..].
Lemma tgood_act p f : (forall s, TI s -> TI (fst (f s)) /\ durations (fst (f s)) = durations s /\ tgood p (snd (f s))) -> tgood p (GAct f).
Proof using Type. intros H s Hs. destruct (H s Hs) as (H1 & H2 & H3). split; [exact H1|]. left. auto. Qed.
Definition tloop p (loop : (Z -> gen mst) -> gen mst) : Prop := forall k, (forall n, tgood p (k n)) -> tgood p (loop k).

(** what visiting one element may do *)
Definition tvisit p (s : mst) (r : mst * res (option (list dp * (mst -> mst * res unit)))) : Prop :=
  TI (fst r) /\
  match snd r with
  | Ok (Some (ms, post)) =>
      ((durations (fst r) = durations s /\ Forall alien ms) \/
       exists ds ts, durations s = Some ds /\ ds <> [] /\ durations (fst r) = Some [] /\ summarised key p ts ds ms) /\
      forall s2, TI s2 -> TI (fst (post s2)) /\ durations (fst (post s2)) = durations s2
  | Ok None => durations (fst r) = durations s
  | Exn e => durations (fst r) = durations s \/
      exists ds, durations s = Some ds /\ ds <> [] /\ durations (fst r) = Some [] /\ timer_stats p ds = Exn e
  end.
Lemma giter_tgood (p : Z) {X} (xs : list X) u visit k :
  (forall x s, TI s -> tvisit p s (visit x s)) -> (forall n, tgood p (k n)) -> forall n, tgood p (giter xs u visit n k).
Proof using Type.
  intros Hv Hk. induction xs as [|x xs IH]; intros n; cbn [giter tgood]; intros s Hs.
  - destruct (u s); cbn [fst snd]; (split; [exact Hs|left]); auto. split; [reflexivity|exact I].
  - destruct (negb (u s)); [split; [exact Hs|left; split; [reflexivity|exact I]]|].
    specialize (Hv x s Hs). destruct (visit x s) as [s' [[[ms post]|]|e]]; destruct Hv as [H1 H2]; cbn [fst snd] in *.
    + destruct H2 as [H2 H3]. split; [exact H1|].
      assert (Hrest : tgood p (GAct (fun s2 => match post s2 with (s3, Ok _) => (s3, giter xs u visit (n + 1) k) | (s3, Exn e) => (s3, GRaise e) end))).
      { apply tgood_act. intros s2 Hs2. specialize (H3 s2 Hs2). destruct (post s2) as [s3 [[]|e]]; cbn [fst snd] in *; destruct H3 as [H3 H5];
          (split; [exact H3|]; split; [exact H5|]); [apply IH|exact I]. }
      destruct H2 as [[H2 H4]|(ds & ts & D1 & D2 & D3 & D4)].
      * left. split; [exact H2|]. split; [exact H4|exact Hrest].
      * right. exists ds. split; [exact D1|]. split; [exact D2|]. split; [exact D3|]. split; [eauto|exact Hrest].
    + split; [exact H1|]. left. auto.
    + split; [exact H1|]. destruct H2 as [H2|(ds & D1 & D2 & D3 & D4)]; [left; split; [exact H2|exact I]|right; eauto 6].
Qed.
Lemma gdict_tgood (p : Z) {V} (d : mst -> gmap str V) visit :
  (forall k v s, TI s -> d s !! k = Some v -> tvisit p s (visit k v s)) -> tloop p (gdict E d visit).
Proof using Type.
  intros Hv k Hk. apply tgood_act. intros s Hs. unfold gdict.
  destruct (dict_keys E (d s) (p_w s)) as [ks w]. cbn [fst snd]. split; [plain|]. split; [reflexivity|].
  apply giter_tgood; [|exact Hk]. intros k1 s1 Hs1. destruct (d s1 !! k1) as [v|] eqn:Ev; [exact (Hv k1 v s1 Hs1 Ev)|].
  split; [exact Hs1|reflexivity].
Qed.
Lemma timed_tgood p loop k : tloop p loop -> (forall n x, tgood p (k n x)) -> tgood p (timed E loop k).
Proof using Type.
  intros Hl Hk. apply tgood_act. intros s Hs. unfold now. cbn [fst snd]. split; [plain|]. split; [reflexivity|].
  apply Hl. intros n. apply tgood_act. intros s1 Hs1. cbn [fst snd]. split; [plain|]. split; [reflexivity|]. apply Hk.
Qed.
Lemma no_post_t (s2 : mst) : TI s2 -> TI (fst (no_post s2)) /\ durations (fst (no_post s2)) = durations s2.
Proof using Type. auto. Qed.
Lemma foreign d : (forall x, dp_name d <> B "stats.timers." ++ x) -> alien d.
Proof using Type. intros H. left. intros p (suf & _ & Hs). exact (H _ Hs). Qed.
Ltac odd := apply foreign; let x := fresh in let H := fresh in intros x H; discriminate H.

Lemma counter_tloop p i ts : tloop p (mp_flush_counter E i ts).
Proof using Type.
  apply gdict_tgood. intros k n s Hs Hn.
  assert (Hi : TI (set_counter (<[k := n0]> (p_counter s)) s)).
  { destruct Hs as [H1 H2 H3]. split; cbn; auto. intros k1 Hk. destruct (decide (k = k1)) as [<-|Hne]; [eauto|].
    rewrite lookup_insert_ne in Hk by auto. auto. }
  unfold tvisit. destruct (i =? 0); cbn [fst snd]; (split; [exact Hi|]); [left; reflexivity|]. split; [|exact no_post_t].
  left. split; [reflexivity|]. each; [|unfold count_prefix; odd].
  right. unfold stats_prefix. do 3 eexists. split; [apply (ti_c s Hs); eauto|reflexivity].
Qed.
Lemma other_timer p k x v ts : k <> key -> forall suf, In suf [B ".count"; B ".lower"; B ".mean"; B ".upper"; B ".upper_" ++ show_Z p] ->
  x = suf -> alien (DP (B "stats.timers." ++ k ++ x) v ts).
Proof using Type.
  intros Hne suf Hin ->. left. intros p' H. cbn [dp_name] in H.
  assert (H' : timer_series p k (B "stats.timers." ++ k ++ suf)) by (exists suf; auto).
  apply timer_tail in H, H'. destruct H as (a & _ & Ha & H), H' as (b & _ & Hb & H').
  rewrite H in H'. apply app_inv_head in H'. eapply last_dot in H'; [|exact Ha|exact Hb]. destruct H' as [H' _]. congruence.
Qed.
Lemma timer_tloop p ts : tloop p (mp_flush_timer E p ts).
Proof using Type.
  apply gdict_tgood. intros k ds s Hs Hn. unfold tvisit. destruct ds as [|x ds]; [split; [exact Hs|reflexivity]|].
  assert (Hi : TI (set_timer (<[k := []]> (p_timer s)) s)) by plain.
  destruct (decide (k = key)) as [->|Hne].
  - assert (Hd : durations (set_timer (<[key := []]> (p_timer s)) s) = Some []) by (cbn; apply lookup_insert).
    destruct (timer_stats p (x :: ds)) as [[[[[mean upper] tupper] lower] count]|e] eqn:Et; cbn [fst snd]; (split; [exact Hi|]).
    + split; [|exact no_post_t]. right. exists (x :: ds), ts. repeat split; [exact Hn|discriminate|exact Hd|].
      exists mean, upper, tupper, lower, count. auto.
    + right. exists (x :: ds). repeat split; [exact Hn|discriminate|exact Hd|exact Et].
  - assert (Hd : durations (set_timer (<[k := []]> (p_timer s)) s) = durations s) by (cbn; apply lookup_insert_ne; exact Hne).
    destruct (timer_stats p (x :: ds)) as [[[[[mean upper] tupper] lower] count]|e] eqn:Et; cbn [fst snd]; (split; [exact Hi|]).
    + split; [|exact no_post_t]. left. split; [exact Hd|]. unfold timer_prefix.
      each; (eapply (other_timer p); [exact Hne| |reflexivity]); cbn; tauto.
    + left. exact Hd.
Qed.
Lemma gauge_tloop p ts : tloop p (mp_flush_gauge ts).
Proof using Type.
  intros k Hk. apply tgood_act. intros s Hs. cbn [fst snd]. split; [exact Hs|]. split; [reflexivity|]. apply giter_tgood; [|exact Hk].
  intros [v k1] s1 Hs1. split; [exact Hs1|]. cbn [fst snd]. split; [|exact no_post_t]. left. split; [reflexivity|].
  unfold gauge_prefix. each. odd.
Qed.
Lemma meter_tloop p ts : tloop p (flush_meter E ts).
Proof using Type.
  apply gdict_tgood. intros k m s Hs Hn. pose proof (ti_m s Hs k m Hn) as Hp. unfold tvisit.
  destruct (meter_report_named m ts) as [N1 _]. pose proof (meter_report_items m ts) as N3.
  destruct (meter_report m ts) as [m' r]. cbn [fst snd] in *.
  assert (Hi : TI (set_meter (<[k := m']> (p_meter s)) s)).
  { destruct Hs as [H1 H2 H3]. split; cbn; auto. intros k1 m1 Hk. destruct (decide (k = k1)) as [<-|Hne].
    - rewrite lookup_insert in Hk. injection Hk as <-. congruence.
    - rewrite lookup_insert_ne in Hk by auto. eauto. }
  destruct r as [ms|e]; cbn [fst snd]; (split; [exact Hi|]); [|left; reflexivity]. split; [|exact no_post_t].
  left. split; [reflexivity|]. eapply Forall_impl; [exact (N3 ms eq_refl)|].
  intros d (suf & _ & Hd). apply foreign. intros x Hx. rewrite Hd, Hp in Hx. discriminate Hx.
Qed.
Lemma plug_tloop p ts : tloop p (flush_plugins E ts).
Proof using Type.
  apply gdict_tgood. intros k q s Hs Hn. pose proof (ti_p s Hs k q Hn) as Hq. unfold tvisit.
  assert (Hx : forall q' r w, plug_flush E q ts (p_w s) = (q', r, w) -> plug_named k q' /\ forall ms, r = Ok ms ->
    Forall (fun d => named (B "stats.SLI.") d \/ named (B "stats.pdistinct.") d) ms).
  { intros q' r w Hr. split.
    - pose proof Hr as Hr'. destruct q as [x|d]; cbn [plug_flush] in Hr'.
      + pose proof (sli_flush_named E x ts (p_w s)) as N. destruct (sli_flush E x ts (p_w s)) as [[x' l] w']. cbn [fst] in N.
        injection Hr' as <- _ _. cbn [plug_named] in *. congruence.
      + destruct (dmetric_flush E d ts (p_w s)) as [r' w']. injection Hr' as <- _ _. exact Hq.
    - intros ms ->. eapply (fp_named E ts k q (p_w s) ms q' w Hq). unfold FlushComp.fp. rewrite Hr. reflexivity. }
  destruct (plug_flush E q ts (p_w s)) as [[q' r] w]. destruct (Hx q' r w eq_refl) as [Hnm Hms].
  assert (Hi : TI (set_plug (<[k := q']> (p_plug s)) (set_w w s))).
  { destruct Hs as [H1 H2 H3]. split; cbn; auto. intros k1 q1 Hk. destruct (decide (k = k1)) as [<-|Hne].
    - rewrite lookup_insert in Hk. injection Hk as <-. exact Hnm.
    - rewrite lookup_insert_ne in Hk by auto. eauto. }
  destruct r as [ms|e]; cbn [fst snd]; (split; [exact Hi|]); [|left; reflexivity]. split; [|exact no_post_t].
  left. split; [reflexivity|]. eapply Forall_impl; [exact (Hms ms eq_refl)|].
  intros d [[y Hy]|[y Hy]]; apply foreign; intros z Hz; rewrite Hy in Hz; discriminate Hz.
Qed.
Lemma summary_tgood p n per ts : tgood p (flush_summary E C n per ts).
Proof using Type.
  cbn [flush_summary tgood]. split; [each; odd|]. apply (tgood_act p (fun s => _)). intros s Hs. set (pm := list_to_map per).
  destruct (dict_keys E pm (p_w s)) as [names w]. cbn [fst snd]. split; [plain|]. split; [reflexivity|].
  apply giter_tgood.
  - intros name s1 Hs1. destruct (pm !! name) as [[ev du]|]; [|split; [exact Hs1|reflexivity]].
    split; [exact Hs1|]. cbn [summary_kind fst snd]. split; [left; split; [reflexivity|each; odd]|].
    intros s2 Hs2. cbn [fst]. split; [plain|reflexivity].
  - intros _. apply tgood_act. intros s1 Hs1. cbn [fst snd]. split; [plain|]. split; [reflexivity|]. apply gdict_tgood.
    + intros t du s2 Hs2 Ht. unfold summary_type, tvisit. destruct (p_btype s2 !! t); cbn [fst snd]; (split; [exact Hs2|]); [|left; reflexivity].
      split; [left; split; [reflexivity|each; odd]|]. intros s3 Hs3. destruct (p_btype s3 !! t); cbn [fst]; (split; [|reflexivity]); [plain|exact Hs3].
    + intros _. apply tgood_act. intros s2 Hs2. cbn [fst snd]. split; [plain|]. split; [reflexivity|exact I].
Qed.
Lemma flush_tgood i p : tgood p (flush E C i p).
Proof using Type.
  apply (tgood_act p (fun s => _)). intros s Hs. unfold now. cbn [fst snd]. split; [plain|]. split; [reflexivity|].
  destruct (ntrunc _) as [ts|e]; [|exact I].
  apply timed_tgood; [apply counter_tloop|intros]. apply timed_tgood; [apply timer_tloop|intros]. apply timed_tgood; [apply gauge_tloop|intros].
  apply timed_tgood; [apply meter_tloop|intros]. apply timed_tgood; [apply plug_tloop|intros]. apply summary_tgood.
Qed.

(** ** Receiving *)
Definition speaks (m : str) : Prop := forall c fields, typed_line m (B "c") c fields -> K c.
Lemma ti_receive m s : speaks m -> TI s -> TI (receive E plugins m s).
Proof using Type.
  intros Hm [H1 H2 H3]. split.
  - intros k Hk. rewrite counter_step in Hk. unfold counter_view in Hk.
    destruct (decode m) as [[[t raw] fields]|] eqn:Hd; [|apply H1; exact Hk].
    destruct (str_eqb t (B "c") && str_eqb (normalize_key raw) k) eqn:Eb; [|apply H1; exact Hk].
    apply andb_prop in Eb as [E1 E2]. apply str_eqb_eq in E1, E2. subst t k. apply (Hm _ fields).
    apply typed_line_decode. exists raw. auto.
  - intros k me Hk. rewrite meter_one in Hk. unfold view in Hk.
    destruct (decode m) as [[[t raw] [|f0 fields]]|]; try (eapply H2; exact Hk).
    destruct (str_eqb t (B "m") && str_eqb (normalize_key raw) k) eqn:Eb; [|eapply H2; exact Hk].
    destruct (float_of f0); [|eapply H2; exact Hk].
    apply andb_prop in Eb. destruct Eb as [_ Eb]. apply str_eqb_eq in Eb. subst k.
    destruct (p_meter s !! normalize_key raw) as [m0|] eqn:Em.
    + injection Hk as <-. apply H2 in Em. exact Em.
    + injection Hk as <-. unfold meter_new, now. cbn. reflexivity.
  - intros k q Hk. apply plug_receive in Hk.
    destruct Hk as [Hk|(t & raw & fields & f & Hd & -> & Hb & Hf & [(p0 & w & Hp & ->)|(q0 & w & w' & _ & Hq & ->)])].
    + apply H3. exact Hk.
    + apply plug_process_named, H3, Hp.
    + apply plug_process_named. eapply build_named. exact Hq.
Qed.
Lemma ti_init : TI mp_init.
Proof using Type. split; cbn; intros; rewrite lookup_empty in *; [destruct H; discriminate|discriminate..]. Qed.

(** ** Every schedule *)
(** what becomes of a batch: five datapoints, or nothing because the flush raised *)
Definition fate (P : Z -> Prop) (xs : list exn) (b : list num) (l : list dp) : Prop :=
  exists p, P p /\ ((exists ts, summarised key p ts b l) \/ (l = [] /\ exists e, timer_stats p b = Exn e /\ In e xs)).
Definition everything (y : sys) : list dp := y_out y ++ flat_map pending (y_live y ++ y_gone y).
Record cut (P : Z -> Prop) (h : list str) (y : sys) (batches : list (list num)) (groups : list (list dp)) (rest : list dp) : Prop := {
  ct_picks : picks (fun m => timer_sample m key) h (concat batches ++ default [] (durations (y_st y)));
  ct_full : Forall (fun b => b <> []) batches;
  ct_fate : Forall2 (fate P (y_exn y)) batches groups;
  ct_all : everything y ≡ₚ concat groups ++ rest;
  ct_rest : Forall alien rest }.
Definition may (P : Z -> Prop) (e : event) : Prop := match e with Start _ p => P p | Recv m => speaks m | _ => True end.

Lemma fate_more (P : Z -> Prop) xs x b l : fate P xs b l -> fate P (xs ++ x) b l.
Proof using Type.
  intros (p & Hp & [H|(H1 & e & H2 & H3)]); exists p; (split; [exact Hp|]); [left; exact H|right]. split; [exact H1|]. exists e.
  split; [exact H2|]. apply in_or_app. auto.
Qed.
Lemma delete_pending (l : list (gen mst)) i g : l !! i = Some g -> flat_map pending l ≡ₚ pending g ++ flat_map pending (delete i l).
Proof using Type.
  revert i. induction l as [|a l IH]; intros [|i] H; try discriminate.
  - injection H as ->. reflexivity.
  - cbn in H |- *. rewrite (IH i H). apply Permutation_app_swap_app.
Qed.
Lemma insert_pending (l : list (gen mst)) i g g' : l !! i = Some g -> flat_map pending (<[i := g']> l) ≡ₚ pending g' ++ flat_map pending (delete i l).
Proof using Type.
  revert i. induction l as [|a l IH]; intros [|i] H; try discriminate.
  - reflexivity.
  - cbn in H |- *. rewrite (IH i H). apply Permutation_app_swap_app.
Qed.
Lemma picks_app_nil {A} (Q : str -> A -> Prop) ms l : picks Q (ms ++ []) l = picks Q ms l.
Proof using Type. rewrite app_nil_r. reflexivity. Qed.

Lemma cut_moved (P : Z -> Prop) h y bs gs rest p s' xs x o grp more (y' : sys) : P p -> cut P h y bs gs rest -> moved p (y_st y) s' o grp ->
  Forall alien more -> y_st y' = s' -> y_exn y = xs -> y_exn y' = xs ++ x -> (forall e, o = Raised e -> In e x) ->
  everything y' ≡ₚ everything y ++ grp ++ more ->
  exists bs' gs' rest', cut P h y' bs' gs' rest'.
Proof using Type.
  intros Hp [H1 H2 H3 H4 H5] Hm Hmore Hs Hx Hx' Ho He.
  assert (H3' : Forall2 (fate P (y_exn y')) bs gs).
  { rewrite Hx'. eapply Forall2_impl; [exact H3|]. intros b l Hb. rewrite <- Hx. apply fate_more, Hb. }
  destruct Hm as [[E1 ->]|(ds & D1 & D2 & D3 & D4)].
  - exists bs, gs, (rest ++ more). split; try assumption.
    + rewrite Hs, E1. exact H1.
    + rewrite He, H4. cbn [app]. rewrite app_assoc. reflexivity.
    + apply Forall_app. auto.
  - exists (bs ++ [ds]), (gs ++ [grp]), (rest ++ more). split.
    + rewrite Hs, D3. cbn [default from_option id]. rewrite app_nil_r, concat_app. cbn [concat]. rewrite app_nil_r.
      rewrite D1 in H1. exact H1.
    + apply Forall_app. split; [exact H2|]. constructor; [exact D2|constructor].
    + apply Forall2_app; [exact H3'|]. constructor; [|constructor]. exists p. split; [exact Hp|].
      destruct D4 as [D4|(-> & e & -> & D5)]; [left; exact D4|]. right. split; [reflexivity|]. exists e. split; [exact D5|].
      rewrite Hx'. apply in_or_app. right. apply Ho. reflexivity.
    + rewrite He, H4, concat_app. cbn [concat]. rewrite app_nil_r, <- !app_assoc. apply Permutation_app_head.
      apply Permutation_app_swap_app.
    + apply Forall_app. auto.
Qed.

Lemma timers_cut (P : Z -> Prop) es : Forall (may P) es ->
  let y := sys_run E plugins es sys_init in
  TI (y_st y) /\ Forall (fun g => exists p, P p /\ tlive p g) (y_live y) /\
  exists bs gs rest, cut P (lines es) y bs gs rest.
Proof using Type.
  intros Hes y. subst y. induction es as [|e es IH] using rev_ind.
  - split; [apply ti_init|]. split; [constructor|]. exists [], [], []. split; try constructor.
  - apply Forall_app in Hes as [Hes He]. apply Forall_cons in He as [He _].
    destruct (IH Hes) as (T1 & T2 & bs & gs & rest & Hc). clear IH.
    unfold sys_run in *. rewrite fold_left_app. cbn [fold_left]. set (y := fold_left (sys_step E plugins) es sys_init) in *.
    assert (Hl : lines (es ++ [e]) = lines es ++ match e with Recv m => [m] | _ => [] end).
    { unfold lines. rewrite flat_map_app. cbn [flat_map]. rewrite app_nil_r. reflexivity. }
    rewrite Hl. clear Hl. destruct e as [m|i p|i|i]; cbn [sys_step may] in *; rewrite ?app_nil_r.
    + split; [apply ti_receive; assumption|]. split; [exact T2|]. destruct Hc as [H1 H2 H3 H4 H5].
      exists bs, gs, rest. split; try assumption. cbn [y_st].
      destruct (picks_snoc _ _ _ m H1) as [P1 P2]. rewrite timer_one. destruct (view (B "ms") m key) as [d|] eqn:Ev.
      * cbn [default from_option id]. rewrite app_assoc. apply P1. apply view_iff. exact Ev.
      * apply P2. intros a Ha. eapply view_none; eassumption.
    + split; [exact T1|]. split; [apply Forall_app; split; [exact T2|]; constructor; [|constructor]; exists p; split; [exact He|left; apply flush_tgood]|].
      destruct Hc as [H1 H2 H3 H4 H5]. exists bs, gs, rest. split; try assumption.
      unfold everything in *. cbn [y_out y_live y_gone]. rewrite <- H4. rewrite !flat_map_app. cbn [flat_map]. 
      assert (Hp : pending (flush E C i p) = []) by reflexivity. rewrite Hp. cbn [app]. rewrite app_nil_r. reflexivity.
    + destruct (y_live y !! i) as [g|] eqn:Hg; [|eauto 8].
      assert (Hgl : exists p, P p /\ tlive p g) by (rewrite Forall_lookup in T2; eapply T2; exact Hg). destruct Hgl as (p & Hp & Hgl).
      destruct (gnext g (y_st y)) as [s' o] eqn:Hn.
      destruct (gnext_tlive p g _ _ _ T1 Hgl Hn) as (I1 & I2 & grp & more & I3 & I4 & I5).
      destruct o as [d g'| |x]; cbn [y_st y_live goes_on coming] in *; (split; [exact I1|]).
      * split; [apply Forall_insert; eauto|].
        eapply (cut_moved P _ y bs gs rest p s' (y_exn y) []); try reflexivity; try eassumption; cbn [y_exn]; [rewrite app_nil_r; reflexivity|discriminate|].
        unfold everything. cbn [y_out y_live y_gone]. rewrite !flat_map_app, (delete_pending _ _ _ Hg), (insert_pending _ _ _ g' Hg).
        change (pending g ++ grp ++ more) with (pending g ++ (grp ++ more)) in I3.
        transitivity (y_out y ++ ((d :: pending g') ++ flat_map pending (delete i (y_live y))) ++ flat_map pending (y_gone y)).
        { rewrite <- app_assoc. reflexivity. }
        rewrite I3. rewrite <- !app_assoc. apply Permutation_app_head, Permutation_app_head.
        rewrite (app_assoc grp more), Permutation_app_comm, <- !app_assoc. reflexivity.
      * split; [apply Forall_delete; exact T2|].
        eapply (cut_moved P _ y bs gs rest p s' (y_exn y) []); try reflexivity; try eassumption; cbn [y_exn]; [rewrite app_nil_r; reflexivity|discriminate|].
        unfold everything. cbn [y_out y_live y_gone]. rewrite !flat_map_app, (delete_pending _ _ _ Hg).
        apply Permutation_nil in I3. apply app_eq_nil in I3 as [-> I3]. rewrite I3, app_nil_r. reflexivity.
      * split; [apply Forall_delete; exact T2|].
        eapply (cut_moved P _ y bs gs rest p s' (y_exn y) [x]); try reflexivity; try eassumption; cbn [y_exn]; [intros e [= <-]; left; reflexivity|].
        unfold everything. cbn [y_out y_live y_gone]. rewrite !flat_map_app, (delete_pending _ _ _ Hg).
        apply Permutation_nil in I3. apply app_eq_nil in I3 as [-> I3]. rewrite I3, app_nil_r. reflexivity.
    + destruct (y_live y !! i) as [g|] eqn:Hg; [|eauto 8]. cbn [y_st y_live]. split; [exact T1|]. split; [apply Forall_delete; exact T2|].
      destruct Hc as [H1 H2 H3 H4 H5]. exists bs, gs, rest. split; try assumption.
      unfold everything in *. cbn [y_out y_live y_gone]. rewrite <- H4, !flat_map_app, (delete_pending _ _ _ Hg). cbn [flat_map].
      rewrite app_nil_r. apply Permutation_app_head. rewrite (Permutation_app_comm (pending g)), <- app_assoc.
      apply Permutation_app_head. apply Permutation_app_comm.
Qed.
End timers.
