(** Nothing is sent that does not come from a line received: the source of every datapoint, under
    every interleaving of receiving and flushing. *)
From Coq Require Qcanon.
From Verif Require Import Base StrFacts Num Env Stats Glob Metrics Gen GenFacts Processor
  LineSpec LineFacts FloatFacts ProcFacts ProcSpec ReceiveFacts ReceiveFacts2 ReceiveFacts3 PlugFacts
  Sched FlushInv FlushOk SchedFacts StepFacts BlockFacts FlushSpec FlushParts TimerSched TimerDaemon.
Open Scope Z_scope.

(** ** What the theorems speak about *)
Section spec.
Context `{NN : Num} (plugins : list factory).
Notation own_suffixes := [B ".count"; B ".duration"].
(** [comes_from h d]: some line of [h] accounts for the datapoint [d], or it is one of the
    daemon's own figures *)
Inductive comes_from (h : list str) : dp -> Prop :=
| cf_rate m k fs v ts : In m h -> typed_line m (B "c") k fs -> comes_from h (DP (B "stats." ++ k) (VF v) ts)
| cf_count m k fs v ts : In m h -> typed_line m (B "c") k fs -> comes_from h (DP (B "stats_counts." ++ k) (VF v) ts)
| cf_timer m k x p suf v ts : In m h -> timer_sample m k x ->
    In suf [B ".count"; B ".lower"; B ".mean"; B ".upper"; B ".upper_" ++ show_Z p] -> comes_from h (DP (B "stats.timers." ++ k ++ suf) v ts)
| cf_gauge m k v ts : In m h -> gauge_sample m k v -> comes_from h (DP (B "stats.gauge." ++ k ++ B ".value") (VF v) ts)
| cf_meter m k x suf v ts : In m h -> meter_sample m k x -> In suf [B ".count"; B ".rate"] ->
    comes_from h (DP (B "stats.meter." ++ k ++ suf) (VF v) ts)
| cf_sli m k fs suf v ts : In m h -> typed_line m (B "sli") k fs -> (exists config, In (FSli config) plugins) ->
    comes_from h (DP (B "stats.SLI." ++ k ++ suf) v ts)
| cf_distinct m k fs suf v ts : In m h -> typed_line m (B "pd") k fs -> In FDistinct plugins ->
    comes_from h (DP (B "stats.pdistinct." ++ k ++ suf) v ts)
| cf_stats n ts : comes_from h (DP (B "statsd.numStats") (VI n) ts)
| cf_flush kind suf v ts : In kind [B "counter"; B "timer"; B "gauge"; B "meter"; B "plugin"] -> In suf own_suffixes ->
    comes_from h (DP (B "statsd.flush." ++ kind ++ suf) v ts)
| cf_receive m t k fs suf v ts : In m h -> typed_line m t k fs -> In suf own_suffixes ->
    comes_from h (DP (B "statsd.receive." ++ t ++ suf) v ts).
End spec.

Section provenance.
Context `{NN : Num} (E : env) (plugins : list factory).
Notation C := (mp_cls E plugins).
Context (h : list str).
Notation from := (comes_from plugins h).

Definition made_by (f : factory) (q : plug) : Prop :=
  match f, q with FSli _, PSli _ => True | FDistinct, PDist _ => True | _, _ => False end.
Record SI (s : mst) : Prop := {
  si_c : forall k, is_Some (p_counter s !! k) -> exists m fs, In m h /\ typed_line m (B "c") k fs;
  si_t : forall k ds, p_timer s !! k = Some ds -> Forall (fun x => exists m, In m h /\ timer_sample m k x) ds;
  si_g : Forall (fun '(v, k) => exists m, In m h /\ gauge_sample m k v) (p_gauge s);
  si_m : forall k me, p_meter s !! k = Some me -> (me_prefix me = B "stats.meter." /\ me_name me = k) /\ exists m x, In m h /\ meter_sample m k x;
  si_p : forall k q, p_plug s !! k = Some q -> plug_named k q /\
    exists m fs f, In m h /\ typed_line m (factory_type f) k fs /\ In f plugins /\ made_by f q;
  si_y : forall t, is_Some (p_ptime s !! t) -> exists m k fs, In m h /\ typed_line m t k fs }.

Fixpoint pgood (g : gen mst) : Prop :=
  match g with
  | GRet | GRaise _ => True
  | GEmit ms k => Forall from ms /\ pgood k
  | GAct f => forall s, SI s -> SI (fst (f s)) /\ pgood (snd (f s))
  end.
Lemma pgood_pending g : pgood g -> Forall from (pending g).
Proof.
  induction g as [|e|f IH|ms k IH] using gen_ind'; intros H; cbn [pending]; try constructor.
  destruct H as [H1 H2]. apply Forall_app. auto.
Qed.
Lemma gnext_pgood g : forall s s' o, SI s -> pgood g -> gnext g s = (s', o) ->
  SI s' /\ match o with Yielded d g' => from d /\ pgood g' | _ => True end.
Proof using Type.
  induction g as [|e|f IH|ms k IH] using gen_ind'; intros s s' o Hi Hg H; cbn [gnext] in H.
  - injection H as <- <-. auto.
  - injection H as <- <-. auto.
  - cbn [pgood] in Hg. destruct (Hg s Hi) as [H1 H2]. specialize (IH s). destruct (f s) as [s1 g1]. eapply IH; eassumption.
  - destruct Hg as [Hm Hk]. destruct ms as [|d ms]; [eapply IH; eassumption|].
    injection H as <- <-. apply Forall_cons in Hm as [Hd Hm]. split; [exact Hi|]. split; [exact Hd|]. split; assumption.
Qed.

Lemma si_same (s s' : mst) : SI s -> p_counter s' = p_counter s -> p_timer s' = p_timer s -> p_gauge s' = p_gauge s ->
  p_meter s' = p_meter s -> p_plug s' = p_plug s -> p_ptime s' = p_ptime s -> SI s'.
Proof using Type. intros [H1 H2 H3 H4 H5 H6] E1 E2 E3 E4 E5 E6. split; rewrite ?E1, ?E2, ?E3, ?E4, ?E5, ?E6; assumption. Qed.
Ltac plain := eapply si_same; [eassumption|reflexivity..].
Definition ploop (loop : (Z -> gen mst) -> gen mst) : Prop := forall k, (forall n, pgood (k n)) -> pgood (loop k).
Definition pvisit (r : mst * res (option (list dp * (mst -> mst * res unit)))) : Prop :=
  SI (fst r) /\ match snd r with
  | Ok (Some (ms, post)) => Forall from ms /\ forall s2, SI s2 -> SI (fst (post s2))
  | _ => True end.
Lemma giter_pgood {X} (xs : list X) u visit k :
  (forall x s, In x xs -> SI s -> pvisit (visit x s)) -> (forall n, pgood (k n)) -> forall n, pgood (giter xs u visit n k).
Proof using Type.
  intros Hv Hk. induction xs as [|x xs IH]; intros n; cbn [giter pgood]; intros s Hs.
  - destruct (u s); cbn [fst snd]; split; auto. exact I.
  - destruct (negb (u s)); [split; [exact Hs|exact I]|].
    pose proof (Hv x s (or_introl eq_refl) Hs) as H. destruct (visit x s) as [s' [[[ms post]|]|e]]; destruct H as [H1 H2]; cbn [fst snd] in *.
    + split; [exact H1|]. destruct H2 as [H2 H3]. split; [exact H2|]. intros s2 Hs2. specialize (H3 s2 Hs2).
      destruct (post s2) as [s3 [[]|e]]; cbn [fst snd] in *; (split; [exact H3|]); [|exact I].
      apply IH. intros x0 s0 Hx. apply Hv. right. exact Hx.
    + split; [exact H1|]. apply IH. intros x0 s0 Hx. apply Hv. right. exact Hx.
    + split; [exact H1|exact I].
Qed.
Lemma gdict_pgood {V} (d : mst -> gmap str V) visit :
  (forall k v s, SI s -> d s !! k = Some v -> pvisit (visit k v s)) -> ploop (gdict E d visit).
Proof using Type.
  intros Hv k Hk. cbn [pgood gdict]. intros s Hs.
  destruct (dict_keys E (d s) (p_w s)) as [ks w]. cbn [fst snd]. split; [plain|].
  apply giter_pgood; [|exact Hk]. intros k1 s1 _ Hs1. destruct (d s1 !! k1) as [v|] eqn:Ev; [exact (Hv k1 v s1 Hs1 Ev)|].
  split; [exact Hs1|exact I].
Qed.
Lemma timed_pgood loop k : ploop loop -> (forall n x, pgood (k n x)) -> pgood (timed E loop k).
Proof using Type.
  intros Hl Hk. cbn [pgood timed]. intros s Hs. unfold now. cbn [fst snd]. split; [plain|].
  apply Hl. intros n. cbn [pgood]. intros s1 Hs1. cbn [fst snd]. split; [plain|]. apply Hk.
Qed.
Lemma no_post_p (s2 : mst) : SI s2 -> SI (fst (no_post s2)).
Proof using Type. auto. Qed.

Lemma counter_ploop i ts : ploop (mp_flush_counter E i ts).
Proof using Type.
  apply gdict_pgood. intros k n s Hs Hn.
  destruct (si_c s Hs k ltac:(eauto)) as (m & fs & Hm & Ht).
  assert (Hi : SI (set_counter (<[k := n0]> (p_counter s)) s)).
  { destruct Hs as [H1 H2 H3 H4 H5 H6]. split; cbn; auto. intros k1 Hk. destruct (decide (k = k1)) as [<-|Hne]; [eauto|].
    rewrite lookup_insert_ne in Hk by auto. auto. }
  unfold pvisit. destruct (i =? 0); cbn [fst snd]; (split; [exact Hi|]); [exact I|]. split; [|exact no_post_p].
  unfold stats_prefix, count_prefix. each; [eapply cf_rate|eapply cf_count]; eassumption.
Qed.
Lemma timer_ploop p ts : ploop (mp_flush_timer E p ts).
Proof using Type.
  apply gdict_pgood. intros k ds s Hs Hn. pose proof (si_t s Hs k ds Hn) as Hd. unfold pvisit. destruct ds as [|x ds]; [split; [exact Hs|exact I]|].
  apply Forall_cons in Hd as [(m & Hm & Hx) _].
  assert (Hi : SI (set_timer (<[k := []]> (p_timer s)) s)).
  { destruct Hs as [H1 H2 H3 H4 H5 H6]. split; cbn; auto. intros k1 ds1 Hk. destruct (decide (k = k1)) as [<-|Hne].
    - rewrite lookup_insert in Hk. injection Hk as <-. constructor.
    - rewrite lookup_insert_ne in Hk by auto. eauto. }
  destruct (timer_stats p (x :: ds)) as [[[[[mean upper] tupper] lower] count]|e] eqn:Et; cbn [fst snd]; (split; [exact Hi|]); [|exact I].
  split; [|exact no_post_p]. unfold timer_prefix. each; (eapply (cf_timer plugins h m k x p); [exact Hm|exact Hx|cbn; tauto]).
Qed.
Lemma gauge_ploop ts : ploop (mp_flush_gauge ts).
Proof using Type.
  intros k Hk. cbn [pgood mp_flush_gauge]. intros s Hs. cbn [fst snd]. split; [exact Hs|]. apply giter_pgood; [|exact Hk].
  intros [v k1] s1 Hin Hs1. split; [exact Hs1|]. cbn [fst snd]. split; [|exact no_post_p].
  pose proof (si_g s Hs) as Hg. rewrite Forall_forall in Hg. apply elem_of_list_In, Hg in Hin. destruct Hin as (m & Hm & Hx).
  unfold gauge_prefix. each. eapply cf_gauge; eassumption.
Qed.
Lemma meter_ploop ts : ploop (flush_meter E ts).
Proof using Type.
  apply gdict_pgood. intros k m s Hs Hn. destruct (si_m s Hs k m Hn) as [[Hp Hk] (l & x & Hl & Hx)]. unfold pvisit.
  destruct (meter_report_named m ts) as [N1 N2]. destruct (meter_report m ts) as [m' r] eqn:Er. cbn [fst snd] in *.
  assert (Hi : SI (set_meter (<[k := m']> (p_meter s)) s)).
  { destruct Hs as [H1 H2 H3 H4 H5 H6]. split; cbn; auto. intros k1 m1 Hk1. destruct (decide (k = k1)) as [<-|Hne].
    - rewrite lookup_insert in Hk1. injection Hk1 as <-. split; [split; congruence|eauto].
    - rewrite lookup_insert_ne in Hk1 by auto. eauto. }
  destruct r as [ms|e]; cbn [fst snd]; (split; [exact Hi|]); [|exact I]. split; [|exact no_post_p].
  revert Er. unfold meter_report. destruct (neqb _ _); [intros [= _ <-]; constructor|]. destruct (pydiv _ _); [|discriminate].
  intros [= _ <-]. rewrite Hp, Hk. each; (eapply (cf_meter plugins h l k x); [exact Hl|exact Hx|cbn; tauto]).
Qed.
Lemma plug_ploop ts : ploop (flush_plugins E ts).
Proof using Type.
  apply gdict_pgood. intros k q s Hs Hn. destruct (si_p s Hs k q Hn) as [Hq (m & fs & f & Hm & Ht & Hf & Hk)]. unfold pvisit.
  assert (Hx : forall q' r w, plug_flush E q ts (p_w s) = (q', r, w) -> plug_named k q' /\ made_by f q' /\ forall ms, r = Ok ms -> Forall from ms).
  { intros q' r w Hr. destruct q as [x|d]; cbn [plug_flush] in Hr.
    - pose proof (sli_flush_named E x ts (p_w s)) as N. pose proof (sli_flush_items E x ts (p_w s)) as Hi.
      destruct (sli_flush E x ts (p_w s)) as [[x' l] w']. cbn [fst snd] in N, Hi. cbn [plug_named] in Hq. injection Hr as <- <- _.
      split; [cbn [plug_named]; congruence|]. split; [destruct f; exact Hk|]. intros ms [= <-]. eapply Forall_impl; [exact Hi|].
      intros [nm v t] Hd. cbn [dp_name] in Hd.
      assert (Hs' : exists suf, nm = B "stats.SLI." ++ k ++ suf).
      { rewrite Hq in Hd. destruct Hd as [[lb ->]|(suf & _ & ->)]; rewrite <- !app_assoc; eauto. }
      destruct Hs' as [suf ->]. destruct f as [config|]; [|destruct Hk]. eapply cf_sli; [exact Hm|exact Ht|eauto].
    - pose proof (dmetric_flush_items E d ts (p_w s)) as Hi. destruct (dmetric_flush E d ts (p_w s)) as [r' w']. cbn [fst] in Hi.
      injection Hr as <- <- _. split; [exact Hq|]. split; [exact Hk|]. intros ms ->. eapply Forall_impl; [exact (Hi ms eq_refl)|].
      intros [nm v t] (suf & _ & Hd). cbn [dp_name] in Hd. destruct Hq as (Q1 & Q2 & _). rewrite Q1, Q2 in Hd. subst nm.
      destruct f as [config|]; [destruct Hk|]. eapply cf_distinct; [exact Hm|exact Ht|exact Hf]. }
  destruct (plug_flush E q ts (p_w s)) as [[q' r] w]. destruct (Hx q' r w eq_refl) as (X1 & X2 & X3).
  assert (Hi : SI (set_plug (<[k := q']> (p_plug s)) (set_w w s))).
  { destruct Hs as [H1 H2 H3 H4 H5 H6]. split; cbn; auto. intros k1 q1 Hk1. destruct (decide (k = k1)) as [<-|Hne].
    - rewrite lookup_insert in Hk1. injection Hk1 as <-. split; [exact X1|]. exists m, fs, f. auto.
    - rewrite lookup_insert_ne in Hk1 by auto. eauto. }
  destruct r as [ms|e]; cbn [fst snd]; (split; [exact Hi|]); [|exact I]. split; [apply X3; reflexivity|exact no_post_p].
Qed.
Lemma summary_pgood n per ts : (forall kind x, In (kind, x) per -> In kind [B "counter"; B "timer"; B "gauge"; B "meter"; B "plugin"]) ->
  pgood (flush_summary E C n per ts).
Proof using Type.
  intros Hper. cbn [flush_summary pgood]. split; [each; apply cf_stats|]. intros s Hs. set (pm := list_to_map per).
  destruct (dict_keys E pm (p_w s)) as [names w]. cbn [fst snd]. split; [plain|].
  apply giter_pgood.
  - intros name s1 _ Hs1. destruct (pm !! name) as [[ev du]|] eqn:Ep; [|split; [exact Hs1|exact I]].
    apply elem_of_list_to_map_2, elem_of_list_In, Hper in Ep.
    split; [exact Hs1|]. cbn [summary_kind fst snd]. split.
    + each; [apply (cf_flush plugins h name (B ".count"))|apply (cf_flush plugins h name (B ".duration"))]; try exact Ep; cbn; tauto.
    + intros s2 Hs2. cbn [fst]. plain.
  - intros _. cbn [pgood]. intros s1 Hs1. cbn [fst snd]. split; [plain|]. apply gdict_pgood.
    + intros t du s2 Hs2 Ht. destruct (si_y s2 Hs2 t ltac:(eauto)) as (m & k & fs & Hm & Hl). unfold summary_type, pvisit.
      destruct (p_btype s2 !! t); cbn [fst snd]; (split; [exact Hs2|]); [|exact I]. split.
      * each; [apply (cf_receive plugins h m t k fs (B ".count"))|apply (cf_receive plugins h m t k fs (B ".duration"))]; try assumption; cbn; tauto.
      * intros s3 Hs3. destruct (p_btype s3 !! t); cbn [fst]; [plain|exact Hs3].
    + intros _. cbn [pgood]. intros s2 Hs2. cbn [fst snd]. split; [|exact I]. destruct Hs2 as [H1 H2 H3 H4 H5 H6]. split; cbn; auto.
      intros t Ht. rewrite lookup_empty in Ht. destruct Ht; discriminate.
Qed.
Lemma flush_pgood i p : pgood (flush E C i p).
Proof using Type.
  cbn [pgood flush]. intros s Hs. unfold now. cbn [fst snd]. split; [plain|].
  destruct (ntrunc _) as [ts|e]; [|exact I].
  apply timed_pgood; [apply counter_ploop|intros]. apply timed_pgood; [apply timer_ploop|intros]. apply timed_pgood; [apply gauge_ploop|intros].
  apply timed_pgood; [apply meter_ploop|intros]. apply timed_pgood; [apply plug_ploop|intros]. apply summary_pgood.
  intros kind [a b] Hin. cbn in Hin. repeat (destruct Hin as [Hin|Hin]; [injection Hin as <- _ _; cbn; tauto|]). destruct Hin.
Qed.

(** ** Receiving *)
Lemma table_In t f : plugin_table plugins !! t = Some f -> factory_type f = t /\ In f plugins.
Proof using Type.
  unfold plugin_table. intros H.
  assert (Hp : forall l (m : gmap str factory), (forall t f, m !! t = Some f -> factory_type f = t /\ In f plugins) -> (forall f, In f l -> In f plugins) ->
     forall t f, fold_left (fun m f => <[factory_type f := f]> m) l m !! t = Some f -> factory_type f = t /\ In f plugins).
  { induction l as [|f0 l IH]; intros m Hm Hl t0 f1; cbn [fold_left]; [apply Hm|].
    apply IH; [|intros f2 Hf2; apply Hl; right; exact Hf2]. intros t1 f2. destruct (decide (factory_type f0 = t1)) as [<-|Hne].
    - rewrite lookup_insert. intros [= <-]. split; [reflexivity|]. apply Hl. left. reflexivity.
    - rewrite lookup_insert_ne by auto. apply Hm. }
  refine (Hp plugins ∅ _ _ t f H); [|auto]. intros ? ? H0. rewrite lookup_empty in H0. discriminate.
Qed.
Lemma made_process f q fields w : made_by f q -> made_by f (fst (fst (plug_process E q fields w))).
Proof using Type.
  destruct q as [x|d]; cbn [plug_process].
  - destruct (sli_process x fields) as [x' r]. cbn [fst]. destruct f; auto.
  - destruct (dmetric_process E d fields w) as [[d' r] w']. cbn [fst]. destruct f; auto.
Qed.
Lemma made_build f p k w q w' : build_metric E f p k w = (Ok q, w') -> made_by f q.
Proof using Type.
  destruct f as [cfg|]; cbn [build_metric].
  - destruct (sli_conditions _ cfg ∅) as [cs|e]; [|discriminate]. intros [= <- _]. exact I.
  - destruct (dmetric_new E _ _ w) as [d w1]. intros [= <- _]. exact I.
Qed.
Lemma si_receive m s : In m h -> SI s -> SI (receive E plugins m s).
Proof using Type.
  intros Hm [H1 H2 H3 H4 H5 H6]. split.
  - intros k Hk. rewrite counter_step in Hk. unfold counter_view in Hk.
    destruct (decode m) as [[[t raw] fields]|] eqn:Hd; [|apply H1; exact Hk].
    destruct (str_eqb t (B "c") && str_eqb (normalize_key raw) k) eqn:Eb; [|apply H1; exact Hk].
    apply andb_prop in Eb as [E1 E2]. apply str_eqb_eq in E1, E2. subst t k. exists m, fields. split; [exact Hm|].
    apply typed_line_decode. exists raw. auto.
  - intros k ds Hk. rewrite timer_one in Hk. destruct (view (B "ms") m k) as [d|] eqn:Ev; [|eapply H2; exact Hk].
    injection Hk as <-. apply Forall_app. split.
    + destruct (p_timer s !! k) as [l|] eqn:El; cbn [default]; [eapply H2; exact El|constructor].
    + constructor; [|constructor]. exists m. split; [exact Hm|]. apply view_iff. exact Ev.
  - rewrite gauge_one. apply Forall_app. split; [exact H3|]. apply Forall_forall. intros [v k] Hin.
    exists m. split; [exact Hm|]. apply gauge_of_iff. revert Hin. unfold gauge_of.
    destruct (decode m) as [[[t raw] [|f0 fs]]|]; try (intros Hin; inversion Hin; fail).
    destruct (str_eqb t (B "g")); [|intros Hin; inversion Hin]. destruct (float_of f0); [|intros Hin; inversion Hin].
    intros Hin. apply elem_of_list_singleton in Hin. rewrite Hin. reflexivity.
  - intros k me Hk. rewrite meter_one in Hk. destruct (view (B "m") m k) as [x|] eqn:Ev; [|eapply H4; exact Hk].
    apply view_iff in Ev. split; [|exists m, x; auto].
    destruct (p_meter s !! k) as [m0|] eqn:Em.
    + injection Hk as <-. apply H4 in Em. exact (proj1 Em).
    + injection Hk as <-. unfold meter_new, now. cbn. auto.
  - intros k q Hk. apply plug_receive in Hk.
    destruct Hk as [Hk|(t & raw & fields & f & Hd & -> & Hb & Hf & [(p0 & w & Hp & ->)|(q0 & w & w' & _ & Hq & ->)])].
    + apply H5. exact Hk.
    + destruct (H5 _ _ Hp) as [Hn (m0 & fs0 & f0 & A & B0 & C0 & D)]. split; [apply plug_process_named, Hn|].
      exists m0, fs0, f0. split; [exact A|]. split; [exact B0|]. split; [exact C0|]. apply made_process, D.
    + apply table_In in Hf as [Hf Hi]. split; [apply plug_process_named; eapply build_named; exact Hq|].
      exists m, fields, f. split; [exact Hm|]. split; [rewrite Hf; apply typed_line_decode; eauto|]. split; [exact Hi|].
      apply made_process. eapply made_build. exact Hq.
  - intros t Ht. destruct (receive_ptime E plugins m s) as [[_ Hp]|(t' & raw & fields & n & x & Hd & Hk & _ & Hp)]; rewrite Hp in Ht.
    + apply H6. exact Ht.
    + destruct (decide (t' = t)) as [<-|Hne].
      * exists m, (normalize_key raw), fields. split; [exact Hm|]. apply typed_line_decode. eauto.
      * rewrite lookup_insert_ne in Ht by auto. apply H6. exact Ht.
Qed.
Lemma si_init : SI mp_init.
Proof using Type.
  split; cbn; try (intros k [x H]; rewrite lookup_empty in H; discriminate); try (intros k x H; rewrite lookup_empty in H; discriminate).
  constructor.
Qed.

Lemma all_from es : Forall (fun e => match e with Recv m => In m h | _ => True end) es ->
  let y := sys_run E plugins es sys_init in
  SI (y_st y) /\ Forall from (y_out y) /\ Forall pgood (y_live y) /\ Forall pgood (y_gone y).
Proof using Type.
  intros Hes y. subst y. induction es as [|e es IH] using rev_ind.
  - split; [apply si_init|]. split; constructor; constructor.
  - apply Forall_app in Hes as [Hes He]. apply Forall_cons in He as [He _]. destruct (IH Hes) as (T1 & T2 & T3 & T4). clear IH.
    unfold sys_run in *. rewrite fold_left_app. cbn [fold_left]. set (y := fold_left (sys_step E plugins) es sys_init) in *.
    destruct e as [m|i p|i|i]; cbn [sys_step].
    + split; [apply si_receive; assumption|]. auto.
    + split; [exact T1|]. split; [exact T2|]. split; [|exact T4]. apply Forall_app. split; [exact T3|]. constructor; [apply flush_pgood|constructor].
    + destruct (y_live y !! i) as [g|] eqn:Hg; [|auto].
      assert (Hgl : pgood g) by (rewrite Forall_lookup in T3; eapply T3; exact Hg).
      destruct (gnext g (y_st y)) as [s' o] eqn:Hn. destruct (gnext_pgood g _ _ _ T1 Hgl Hn) as [I1 I2].
      destruct o as [d g'| |x]; cbn [y_st y_live y_out y_gone]; (split; [exact I1|]).
      * destruct I2 as [Hd Hg']. split; [apply Forall_app; split; [exact T2|constructor; [exact Hd|constructor]]|]. split; [apply Forall_insert; assumption|exact T4].
      * split; [exact T2|]. split; [apply Forall_delete; exact T3|exact T4].
      * split; [exact T2|]. split; [apply Forall_delete; exact T3|exact T4].
    + destruct (y_live y !! i) as [g|] eqn:Hg; [|auto]. cbn [y_st y_live y_out y_gone].
      assert (Hgl : pgood g) by (rewrite Forall_lookup in T3; eapply T3; exact Hg).
      split; [exact T1|]. split; [exact T2|]. split; [apply Forall_delete; exact T3|]. apply Forall_app. split; [exact T4|]. constructor; [exact Hgl|constructor].
Qed.
End provenance.

Lemma sent_from `{NN : Num} (E : env) plugins es :
  let y := sys_run E plugins es sys_init in
  Forall (comes_from plugins (lines es)) (y_out y ++ flat_map pending (y_live y ++ y_gone y)).
Proof.
  intros y. destruct (all_from E plugins (lines es) es) as (_ & H1 & H2 & H3).
  { apply Forall_forall. intros e He. apply elem_of_list_In in He. destruct e; try exact I. apply in_lines. exact He. }
  apply Forall_app. split; [exact H1|]. fold y in H2, H3. assert (H : Forall (pgood plugins (lines es)) (y_live y ++ y_gone y)) by (apply Forall_app; auto).
  induction H as [|g l Hg _ IH]; [constructor|]. cbn [flat_map]. apply Forall_app. split; [apply pgood_pending; exact Hg|exact IH].
Qed.
(** a gauge by its name *)
Lemma gauge_from `{NN : Num} (E : env) plugins key es d :
  In d (y_out (sys_run E plugins es sys_init)) -> dp_name d = B "stats.gauge." ++ key ++ B ".value" ->
  ~ counted (lines es) (B "gauge." ++ key ++ B ".value") ->
  exists m v, In m (lines es) /\ gauge_sample m key v /\ dp_value d = VF v.
Proof.
  intros Hd Hn Hc. pose proof (sent_from E plugins es) as H. cbv zeta in H. apply Forall_app in H as [H _].
  rewrite Forall_forall in H. apply elem_of_list_In, H in Hd. clear H. destruct Hd; cbn [dp_name dp_value] in *; try discriminate Hn.
  - exfalso. apply Hc. exists m, fs. split; [assumption|]. change (B "stats.gauge.") with (B "stats." ++ B "gauge.") in Hn.
    rewrite <- app_assoc in Hn. apply app_inv_head in Hn. subst k. assumption.
  - apply app_inv_head in Hn. apply app_inv_tail in Hn. subst k. eauto.
Qed.
