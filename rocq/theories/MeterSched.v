(** A meter under every interleaving of receiving and flushing: it goes through one history of
    marks and reports, the marks are the lines received, in order, and what is sent under its
    names is what the reports of that history give. *)
From Verif Require Import Base StrFacts Num Env Stats Glob Metrics Gen GenFacts Processor
  LineSpec LineFacts FloatFacts ProcFacts ProcSpec ReceiveFacts ReceiveFacts2 ReceiveFacts3 PlugFacts
  Sched FlushInv FlushOk SchedFacts StepFacts BlockFacts MeterFacts FlushSpec FlushParts SeriesFacts.

(** ** What the theorems speak about *)
Section spec.
Context `{NN : Num}.
(** the names of a meter *)
Definition meter_names (key n : str) : Prop := exists suf, In suf [B ".count"; B ".rate"] /\ n = B "stats.meter." ++ key ++ suf.
(** a datapoint that is not the meter's: it bears none of its names, or it is the rate of a
    counter whose name begins with "meter." *)
Definition not_meters (K : str -> Prop) (key : str) (d : dp) : Prop :=
  ~ meter_names key (dp_name d) \/ exists c v ts, K c /\ d = DP (B "stats." ++ c) (VF v) ts.
(** what the reports of a history give *)
Fixpoint outs (m : meter) (ops : list mop) : list dp :=
  match ops with
  | [] => []
  | Mark v :: ops => outs (meter_mark m v) ops
  | Report ts :: ops => match snd (meter_report m ts) with Ok l => l | Exn _ => [] end ++ outs (fst (meter_report m ts)) ops
  end.
Lemma outs_app m a b : outs m (a ++ b) = outs m a ++ outs (mrun a m) b.
Proof.
  revert m. induction a as [|[v|ts] a IH]; intros m; [reflexivity|exact (IH _)|].
  cbn [app outs]. rewrite IH, app_assoc. reflexivity.
Qed.
End spec.

Section meters.
Context `{NN : Num} (E : env) (plugins : list factory).
Notation C := (mp_cls E plugins).
Context (K : str -> Prop) (key : str).
Notation alien := (not_meters K key).
Notation mine s := (p_meter s !! key).

Record MI (s : mst) : Prop := {
  mi_c : forall c, is_Some (p_counter s !! c) -> K c;
  mi_m : forall k m, p_meter s !! k = Some m -> me_prefix m = B "stats.meter." /\ me_name m = k;
  mi_p : forall k q, p_plug s !! k = Some q -> plug_named k q }.

(** a flush that reports the meter goes on to send the report, or raises *)
Fixpoint mgood (g : gen mst) : Prop :=
  match g with
  | GRet | GRaise _ => True
  | GEmit ms k => Forall alien ms /\ mgood k
  | GAct f => forall s, MI s -> MI (fst (f s)) /\
      ((mine (fst (f s)) = mine s /\ mgood (snd (f s))) \/
       exists m ts, mine s = Some m /\ mine (fst (f s)) = Some (fst (meter_report m ts)) /\
         match snd (f s) with
         | GEmit l k => snd (meter_report m ts) = Ok l /\ mgood k
         | GRaise e => snd (meter_report m ts) = Exn e
         | _ => False
         end)
  end.
(** in the middle of a group *)
Definition mlive (g : gen mst) : Prop := mgood g \/ exists ms k, g = GEmit ms k /\ mgood k.
Lemma mgood_pending g : mgood g -> Forall alien (pending g).
Proof.
  induction g as [|e|f IH|ms k IH] using gen_ind'; intros H; cbn [pending]; try constructor.
  destruct H as [H1 H2]. apply Forall_app. auto.
Qed.
Definition coming (o : step_out mst) : list dp := match o with Yielded d g => d :: pending g | _ => [] end.
Definition goes_on (o : step_out mst) : Prop := match o with Yielded _ g => mlive g | _ => True end.
(** what one step reports *)
Definition moved (s s' : mst) (grp : list dp) : Prop :=
  (mine s' = mine s /\ grp = []) \/
  exists m tss, mine s = Some m /\ mine s' = Some (mrun (map Report tss) m) /\ grp = outs m (map Report tss).
Lemma moved_after (s s1 s' : mst) m ts grp : mine s = Some m -> mine s1 = Some (fst (meter_report m ts)) -> moved s1 s' grp ->
  moved s s' (match snd (meter_report m ts) with Ok l => l | Exn _ => [] end ++ grp).
Proof using Type.
  intros H1 H2 H. right. exists m. destruct H as [[H3 ->]|(m1 & tss & H3 & H4 & ->)].
  - exists [ts]. split; [exact H1|]. rewrite H3, H2. split; [reflexivity|]. reflexivity.
  - rewrite H2 in H3. injection H3 as <-. exists (ts :: tss). split; [exact H1|]. split; [exact H4|reflexivity].
Qed.

Lemma gnext_mgood g : forall s s' o, MI s -> mgood g -> gnext g s = (s', o) ->
  MI s' /\ goes_on o /\ exists grp rest, coming o ≡ₚ pending g ++ grp ++ rest /\ Forall alien rest /\ moved s s' grp.
Proof using Type.
  induction g as [|e|f IH|ms k IH] using gen_ind'; intros s s' o Hi Hg H; cbn [gnext] in H.
  - injection H as <- <-. split; [exact Hi|]. split; [exact I|]. exists [], []. split; [reflexivity|]. split; [constructor|left; auto].
  - injection H as <- <-. split; [exact Hi|]. split; [exact I|]. exists [], []. split; [reflexivity|]. split; [constructor|left; auto].
  - cbn [mgood] in Hg. destruct (Hg s Hi) as [H1 H2]. clear Hg. specialize (IH s). destruct (f s) as [s1 g1]. cbn [fst snd] in *.
    destruct H2 as [[E1 E2]|(m & ts & D1 & D2 & D3)].
    + destruct (IH s1 s' o H1 E2 H) as (I1 & I2 & grp & rest & I3 & I4 & I5).
      split; [exact I1|]. split; [exact I2|]. exists grp, (pending g1 ++ rest). cbn [pending app].
      split; [rewrite I3; apply Permutation_app_swap_app|].
      split; [apply Forall_app; split; [apply mgood_pending, E2|exact I4]|]. unfold moved in *. rewrite E1 in I5. exact I5.
    + destruct g1 as [|e1|f1|l k]; try (destruct D3; fail).
      * injection H as <- <-. split; [exact H1|]. split; [exact I|]. exists [], []. split; [reflexivity|]. split; [constructor|].
        pose proof (moved_after s s1 s1 m ts [] D1 D2 (or_introl (conj eq_refl eq_refl))) as Hm. rewrite D3 in Hm. exact Hm.
      * destruct D3 as [D3 Hk]. destruct l as [|d l].
        -- destruct (IH s1 s' o H1 (conj (Forall_nil_2 _) Hk) H) as (I1 & I2 & grp & rest & I3 & I4 & I5). cbn [pending app] in I3.
           split; [exact I1|]. split; [exact I2|]. exists grp, (pending k ++ rest). cbn [pending app].
           split; [rewrite I3; apply Permutation_app_swap_app|].
           split; [apply Forall_app; split; [apply mgood_pending, Hk|exact I4]|].
           pose proof (moved_after s s1 s' m ts grp D1 D2 I5) as Hm. rewrite D3 in Hm. exact Hm.
        -- injection H as <- <-. split; [exact H1|]. split; [right; eauto|].
           exists (d :: l), (pending k). cbn [coming pending app]. split; [reflexivity|]. split; [apply mgood_pending, Hk|].
           pose proof (moved_after s s1 s1 m ts [] D1 D2 (or_introl (conj eq_refl eq_refl))) as Hm. rewrite D3, app_nil_r in Hm. exact Hm.
  - destruct Hg as [Hm Hk]. destruct ms as [|d ms].
    + destruct (IH s s' o Hi Hk H) as (I1 & I2 & grp & rest & I3 & I4 & I5). eauto 8.
    + injection H as <- <-. split; [exact Hi|]. split; [right; eauto|].
      exists [], []. cbn [coming pending]. rewrite !app_nil_r. split; [reflexivity|]. split; [constructor|left; auto].
Qed.
Lemma gnext_mlive g s s' o : MI s -> mlive g -> gnext g s = (s', o) ->
  MI s' /\ goes_on o /\ exists grp rest, coming o ≡ₚ pending g ++ grp ++ rest /\ Forall alien rest /\ moved s s' grp.
Proof using Type.
  intros Hi [Hg|(ms & k & -> & Hk)] H; [eapply gnext_mgood; eassumption|].
  destruct ms as [|d ms]; cbn [gnext] in H.
  - destruct (gnext_mgood k s s' o Hi Hk H) as (I1 & I2 & grp & rest & I3 & I4 & I5). eauto 8.
  - injection H as <- <-. split; [exact Hi|]. split; [right; eauto|].
    exists [], []. cbn [coming pending]. rewrite !app_nil_r. split; [reflexivity|]. split; [constructor|left; auto].
Qed.

(** ** A flush *)
Lemma mi_same (s s' : mst) : MI s -> p_counter s' = p_counter s -> p_meter s' = p_meter s -> p_plug s' = p_plug s -> MI s'.
Proof using Type. intros [H1 H2 H3] Hc Hm Hp. split; rewrite ?Hc, ?Hm, ?Hp; assumption. Qed.
Ltac plain := eapply mi_same; [eassumption|reflexivity..].
Lemma mgood_act f : (forall s, MI s -> MI (fst (f s)) /\ mine (fst (f s)) = mine s /\ mgood (snd (f s))) -> mgood (GAct f).
Proof using Type. intros H s Hs. destruct (H s Hs) as (H1 & H2 & H3). split; [exact H1|]. left. auto. Qed.
Definition mloop (loop : (Z -> gen mst) -> gen mst) : Prop := forall k, (forall n, mgood (k n)) -> mgood (loop k).

(** what visiting one element may do *)
Definition mvisit (s : mst) (r : mst * res (option (list dp * (mst -> mst * res unit)))) : Prop :=
  MI (fst r) /\
  match snd r with
  | Ok (Some (ms, post)) =>
      ((mine (fst r) = mine s /\ Forall alien ms) \/
       exists m ts, mine s = Some m /\ mine (fst r) = Some (fst (meter_report m ts)) /\ snd (meter_report m ts) = Ok ms) /\
      forall s2, MI s2 -> MI (fst (post s2)) /\ mine (fst (post s2)) = mine s2
  | Ok None => mine (fst r) = mine s
  | Exn e => mine (fst r) = mine s \/
      exists m ts, mine s = Some m /\ mine (fst r) = Some (fst (meter_report m ts)) /\ snd (meter_report m ts) = Exn e
  end.
Lemma giter_mgood {X} (xs : list X) u visit k :
  (forall x s, MI s -> mvisit s (visit x s)) -> (forall n, mgood (k n)) -> forall n, mgood (giter xs u visit n k).
Proof using Type.
  intros Hv Hk. induction xs as [|x xs IH]; intros n; cbn [giter mgood]; intros s Hs.
  - destruct (u s); cbn [fst snd]; (split; [exact Hs|left]); auto. split; [reflexivity|exact I].
  - destruct (negb (u s)); [split; [exact Hs|left; split; [reflexivity|exact I]]|].
    specialize (Hv x s Hs). destruct (visit x s) as [s' [[[ms post]|]|e]]; destruct Hv as [H1 H2]; cbn [fst snd] in *.
    + destruct H2 as [H2 H3]. split; [exact H1|].
      assert (Hrest : mgood (GAct (fun s2 => match post s2 with (s3, Ok _) => (s3, giter xs u visit (n + 1) k) | (s3, Exn e) => (s3, GRaise e) end))).
      { apply mgood_act. intros s2 Hs2. specialize (H3 s2 Hs2). destruct (post s2) as [s3 [[]|e]]; cbn [fst snd] in *; destruct H3 as [H3 H5];
          (split; [exact H3|]; split; [exact H5|]); [apply IH|exact I]. }
      destruct H2 as [[H2 H4]|(m & ts & D1 & D2 & D3)].
      * left. split; [exact H2|]. split; [exact H4|exact Hrest].
      * right. exists m, ts. split; [exact D1|]. split; [exact D2|]. split; [exact D3|exact Hrest].
    + split; [exact H1|]. left. auto.
    + split; [exact H1|]. destruct H2 as [H2|(m & ts & D1 & D2 & D3)]; [left; split; [exact H2|exact I]|right; eauto 6].
Qed.
Lemma gdict_mgood {V} (d : mst -> gmap str V) visit :
  (forall k v s, MI s -> d s !! k = Some v -> mvisit s (visit k v s)) -> mloop (gdict E d visit).
Proof using Type.
  intros Hv k Hk. apply mgood_act. intros s Hs. unfold gdict.
  destruct (dict_keys E (d s) (p_w s)) as [ks w]. cbn [fst snd]. split; [plain|]. split; [reflexivity|].
  apply giter_mgood; [|exact Hk]. intros k1 s1 Hs1. destruct (d s1 !! k1) as [v|] eqn:Ev; [exact (Hv k1 v s1 Hs1 Ev)|].
  split; [exact Hs1|reflexivity].
Qed.
Lemma timed_mgood loop k : mloop loop -> (forall n x, mgood (k n x)) -> mgood (timed E loop k).
Proof using Type.
  intros Hl Hk. apply mgood_act. intros s Hs. unfold now. cbn [fst snd]. split; [plain|]. split; [reflexivity|].
  apply Hl. intros n. apply mgood_act. intros s1 Hs1. cbn [fst snd]. split; [plain|]. split; [reflexivity|]. apply Hk.
Qed.
Lemma no_post_m (s2 : mst) : MI s2 -> MI (fst (no_post s2)) /\ mine (fst (no_post s2)) = mine s2.
Proof using Type. auto. Qed.
Lemma foreign d : (forall x, dp_name d <> B "stats.meter." ++ x) -> alien d.
Proof using Type. intros H. left. intros (suf & _ & Hs). exact (H _ Hs). Qed.
Ltac odd := apply foreign; let x := fresh in let H := fresh in intros x H; discriminate H.

Lemma counter_mloop i ts : mloop (mp_flush_counter E i ts).
Proof using Type.
  apply gdict_mgood. intros k n s Hs Hn.
  assert (Hi : MI (set_counter (<[k := n0]> (p_counter s)) s)).
  { destruct Hs as [H1 H2 H3]. split; cbn; auto. intros k1 Hk. destruct (decide (k = k1)) as [<-|Hne]; [eauto|].
    rewrite lookup_insert_ne in Hk by auto. auto. }
  unfold mvisit. destruct (i =? 0); cbn [fst snd]; (split; [exact Hi|]); [left; reflexivity|]. split; [|exact no_post_m].
  left. split; [reflexivity|]. each; [|unfold count_prefix; odd].
  right. unfold stats_prefix. do 3 eexists. split; [apply (mi_c s Hs); eauto|reflexivity].
Qed.
Lemma timer_mloop p ts : mloop (mp_flush_timer E p ts).
Proof using Type.
  apply gdict_mgood. intros k ds s Hs Hn. unfold mvisit. destruct ds as [|x ds]; [split; [exact Hs|reflexivity]|].
  assert (Hi : MI (set_timer (<[k := []]> (p_timer s)) s)) by plain.
  destruct (timer_stats p (x :: ds)) as [[[[[mean upper] tupper] lower] count]|e] eqn:Et; cbn [fst snd]; (split; [exact Hi|]).
  - split; [|exact no_post_m]. left. split; [reflexivity|]. unfold timer_prefix. each; odd.
  - left. reflexivity.
Qed.
Lemma gauge_mloop ts : mloop (mp_flush_gauge ts).
Proof using Type.
  intros k Hk. apply mgood_act. intros s Hs. cbn [fst snd]. split; [exact Hs|]. split; [reflexivity|]. apply giter_mgood; [|exact Hk].
  intros [v k1] s1 Hs1. split; [exact Hs1|]. cbn [fst snd]. split; [|exact no_post_m]. left. split; [reflexivity|].
  unfold gauge_prefix. each. odd.
Qed.
Lemma report_names (m : meter) ts ms : snd (meter_report m ts) = Ok ms ->
  Forall (fun d => exists suf, In suf [B ".count"; B ".rate"] /\ dp_name d = me_prefix m ++ me_name m ++ suf) ms.
Proof using Type.
  unfold meter_report. destruct (neqb _ _); [intros [= <-]; constructor|]. destruct (pydiv _ _); [|discriminate].
  cbn [snd]. intros [= <-]. each; cbn [dp_name]; eexists; (split; [|reflexivity]); cbn; auto.
Qed.
Lemma meter_tail k n : meter_names k n -> exists x, ~ In "."%char x /\ n = B "stats.meter." ++ k ++ "."%char :: x.
Proof using Type.
  intros (suf & Hin & ->). destruct Hin as [<-|[<-|[]]]; [exists (B "count")|exists (B "rate")]; (split; [|reflexivity]); intros H; apply has_In in H; discriminate.
Qed.
Lemma other_meter k d : k <> key -> meter_names k (dp_name d) -> alien d.
Proof using Type.
  intros Hne H. left. intros H'. apply meter_tail in H, H'. destruct H as (a & Ha & H), H' as (b & Hb & H').
  rewrite H in H'. apply app_inv_head in H'. eapply last_dot in H'; [|exact Ha|exact Hb]. destruct H' as [H' _]. congruence.
Qed.
Lemma meter_mloop ts : mloop (flush_meter E ts).
Proof using Type.
  apply gdict_mgood. intros k m s Hs Hn. destruct (mi_m s Hs k m Hn) as [Hp Hk]. unfold mvisit.
  destruct (meter_report_named m ts) as [N1 N2]. pose proof (report_names m ts) as N3.
  destruct (meter_report m ts) as [m' r] eqn:Er. cbn [fst snd] in *.
  assert (Hi : MI (set_meter (<[k := m']> (p_meter s)) s)).
  { destruct Hs as [H1 H2 H3]. split; cbn; auto. intros k1 m1 Hk1. destruct (decide (k = k1)) as [<-|Hne].
    - rewrite lookup_insert in Hk1. injection Hk1 as <-. split; congruence.
    - rewrite lookup_insert_ne in Hk1 by auto. eauto. }
  destruct (decide (k = key)) as [->|Hne].
  - assert (Hd : mine (set_meter (<[key := m']> (p_meter s)) s) = Some m') by (cbn; apply lookup_insert).
    destruct r as [ms|e]; cbn [fst snd]; (split; [exact Hi|]); [split; [|exact no_post_m]|]; right; exists m, ts; rewrite Er; cbn [fst snd]; auto.
  - assert (Hd : mine (set_meter (<[k := m']> (p_meter s)) s) = mine s) by (cbn; apply lookup_insert_ne; exact Hne).
    destruct r as [ms|e]; cbn [fst snd]; (split; [exact Hi|]); [|left; exact Hd]. split; [|exact no_post_m].
    left. split; [exact Hd|]. eapply Forall_impl; [exact (N3 ms eq_refl)|].
    intros d (suf & Hsuf & Hd'). apply (other_meter k); [exact Hne|]. exists suf. rewrite Hd', Hp, Hk. auto.
Qed.
Lemma plug_mloop ts : mloop (flush_plugins E ts).
Proof using Type.
  apply gdict_mgood. intros k q s Hs Hn. pose proof (mi_p s Hs k q Hn) as Hq. unfold mvisit.
  assert (Hx : forall q' r w, plug_flush E q ts (p_w s) = (q', r, w) -> plug_named k q' /\ forall ms, r = Ok ms ->
    Forall (fun d => named (B "stats.SLI.") d \/ named (B "stats.pdistinct.") d) ms).
  { intros q' r w Hr. split.
    - pose proof Hr as Hr'. destruct q as [x|d]; cbn [plug_flush] in Hr'.
      + pose proof (sli_flush_named E x ts (p_w s)) as N. destruct (sli_flush E x ts (p_w s)) as [[x' l] w']. cbn [fst] in N.
        injection Hr' as <- _ _. cbn [plug_named] in *. congruence.
      + destruct (dmetric_flush E d ts (p_w s)) as [r' w']. injection Hr' as <- _ _. exact Hq.
    - intros ms ->. eapply (fp_named E ts k q (p_w s) ms q' w Hq). unfold FlushComp.fp. rewrite Hr. reflexivity. }
  destruct (plug_flush E q ts (p_w s)) as [[q' r] w]. destruct (Hx q' r w eq_refl) as [Hnm Hms].
  assert (Hi : MI (set_plug (<[k := q']> (p_plug s)) (set_w w s))).
  { destruct Hs as [H1 H2 H3]. split; cbn; auto. intros k1 q1 Hk. destruct (decide (k = k1)) as [<-|Hne].
    - rewrite lookup_insert in Hk. injection Hk as <-. exact Hnm.
    - rewrite lookup_insert_ne in Hk by auto. eauto. }
  destruct r as [ms|e]; cbn [fst snd]; (split; [exact Hi|]); [|left; reflexivity]. split; [|exact no_post_m].
  left. split; [reflexivity|]. eapply Forall_impl; [exact (Hms ms eq_refl)|].
  intros d [[y Hy]|[y Hy]]; apply foreign; intros z Hz; rewrite Hy in Hz; discriminate Hz.
Qed.
Lemma summary_mgood n per ts : mgood (flush_summary E C n per ts).
Proof using Type.
  cbn [flush_summary mgood]. split; [each; odd|]. apply (mgood_act (fun s => _)). intros s Hs. set (pm := list_to_map per).
  destruct (dict_keys E pm (p_w s)) as [names w]. cbn [fst snd]. split; [plain|]. split; [reflexivity|].
  apply giter_mgood.
  - intros name s1 Hs1. destruct (pm !! name) as [[ev du]|]; [|split; [exact Hs1|reflexivity]].
    split; [exact Hs1|]. cbn [summary_kind fst snd]. split; [left; split; [reflexivity|each; odd]|].
    intros s2 Hs2. cbn [fst]. split; [plain|reflexivity].
  - intros _. apply mgood_act. intros s1 Hs1. cbn [fst snd]. split; [plain|]. split; [reflexivity|]. apply gdict_mgood.
    + intros t du s2 Hs2 Ht. unfold summary_type, mvisit. destruct (p_btype s2 !! t); cbn [fst snd]; (split; [exact Hs2|]); [|left; reflexivity].
      split; [left; split; [reflexivity|each; odd]|]. intros s3 Hs3. destruct (p_btype s3 !! t); cbn [fst]; (split; [|reflexivity]); [plain|exact Hs3].
    + intros _. apply mgood_act. intros s2 Hs2. cbn [fst snd]. split; [plain|]. split; [reflexivity|exact I].
Qed.
Lemma flush_mgood i p : mgood (flush E C i p).
Proof using Type.
  apply (mgood_act (fun s => _)). intros s Hs. unfold now. cbn [fst snd]. split; [plain|]. split; [reflexivity|].
  destruct (ntrunc _) as [ts|e]; [|exact I].
  apply timed_mgood; [apply counter_mloop|intros]. apply timed_mgood; [apply timer_mloop|intros]. apply timed_mgood; [apply gauge_mloop|intros].
  apply timed_mgood; [apply meter_mloop|intros]. apply timed_mgood; [apply plug_mloop|intros]. apply summary_mgood.
Qed.

(** ** Receiving *)
Definition speaks (m : str) : Prop := forall c fields, typed_line m (B "c") c fields -> K c.
Lemma mi_receive m s : speaks m -> MI s -> MI (receive E plugins m s).
Proof using Type.
  intros Hm [H1 H2 H3]. split.
  - intros k Hk. rewrite counter_step in Hk. unfold counter_view in Hk.
    destruct (decode m) as [[[t raw] fields]|] eqn:Hd; [|apply H1; exact Hk].
    destruct (str_eqb t (B "c") && str_eqb (normalize_key raw) k) eqn:Eb; [|apply H1; exact Hk].
    apply andb_prop in Eb as [E1 E2]. apply str_eqb_eq in E1, E2. subst t k. apply (Hm _ fields).
    apply typed_line_decode. exists raw. auto.
  - intros k me Hk. rewrite meter_one in Hk. destruct (view (B "m") m k); [|eapply H2; exact Hk].
    destruct (p_meter s !! k) as [m0|] eqn:Em.
    + injection Hk as <-. apply H2 in Em. exact Em.
    + injection Hk as <-. unfold meter_new, now. cbn. auto.
  - intros k q Hk. apply plug_receive in Hk.
    destruct Hk as [Hk|(t & raw & fields & f & Hd & -> & Hb & Hf & [(p0 & w & Hp & ->)|(q0 & w & w' & _ & Hq & ->)])].
    + apply H3. exact Hk.
    + apply plug_process_named, H3, Hp.
    + apply plug_process_named. eapply build_named. exact Hq.
Qed.
Lemma mi_init : MI mp_init.
Proof using Type. split; cbn; intros; rewrite lookup_empty in *; [destruct H; discriminate|discriminate..]. Qed.

(** ** Every schedule *)
Definition everything (y : sys) : list dp := y_out y ++ flat_map pending (y_live y ++ y_gone y).
Notation fresh created := (fresh_meter key (B "stats.meter.") created).
Record told (h : list str) (y : sys) (created : num) (ops : list mop) (rest : list dp) : Prop := {
  td_picks : picks (fun m => meter_sample m key) h (marks ops);
  td_state : mine (y_st y) = match marks ops with [] => None | _ => Some (mrun ops (fresh created)) end;
  td_empty : marks ops = [] -> ops = [];
  td_all : everything y ≡ₚ outs (fresh created) ops ++ rest;
  td_rest : Forall alien rest;
  td_new : exists i, created = e_clock E i }.
Definition may (e : event) : Prop := match e with Recv m => speaks m | _ => True end.
Lemma delete_pending (l : list (gen mst)) i g : l !! i = Some g -> flat_map pending l ≡ₚ pending g ++ flat_map pending (delete i l).
Proof using Type.
  revert i. induction l as [|a l IH]; intros [|i] H; try discriminate.
  - injection H as ->. reflexivity.
  - cbn in H |- *. rewrite (IH i H). apply Permutation_app_swap_app.
Qed.
Lemma insert_pending (l : list (gen mst)) i g g' : l !! i = Some g -> flat_map pending (<[i := g']> l) ≡ₚ pending g' ++ flat_map pending (delete i l).
Proof using Type.
  revert i. induction l as [|a l IH]; intros [|i] H; try discriminate.
  - reflexivity.
  - cbn in H |- *. rewrite (IH i H). apply Permutation_app_swap_app.
Qed.
Lemma marks_reports (tss : list Z) : marks (map Report tss) = [].
Proof using Type. induction tss; [reflexivity|assumption]. Qed.
Lemma told_moved h y created ops rest s' grp more (y' : sys) : told h y created ops rest -> moved (y_st y) s' grp ->
  Forall alien more -> y_st y' = s' -> everything y' ≡ₚ everything y ++ grp ++ more ->
  exists ops' rest', told h y' created ops' rest'.
Proof using Type.
  intros [H1 H2 H3 H4 H5 H6] Hm Hmore Hs He. destruct Hm as [[E1 ->]|(m & tss & D1 & D2 & ->)].
  - exists ops, (rest ++ more). split; try assumption.
    + rewrite Hs, E1. exact H2.
    + rewrite He, H4. cbn [app]. rewrite app_assoc. reflexivity.
    + apply Forall_app. auto.
  - rewrite D1 in H2. destruct (marks ops) as [|v vs] eqn:Em; [discriminate|]. injection H2 as ->.
    assert (Ha : marks (ops ++ map Report tss) = v :: vs).
    { unfold marks in *. rewrite flat_map_app, Em. fold (marks (map Report tss)). rewrite marks_reports, app_nil_r. reflexivity. }
    exists (ops ++ map Report tss), (rest ++ more). split.
    + rewrite Ha. exact H1.
    + rewrite Hs, D2, Ha. unfold mrun. rewrite fold_left_app. reflexivity.
    + rewrite Ha. discriminate.
    + rewrite He, H4, outs_app, <- !app_assoc. apply Permutation_app_head, Permutation_app_swap_app.
    + apply Forall_app. auto.
    + exact H6.
Qed.

Lemma meters_told es : Forall may es ->
  let y := sys_run E plugins es sys_init in
  MI (y_st y) /\ Forall mlive (y_live y) /\ exists created ops rest, told (lines es) y created ops rest.
Proof using Type.
  intros Hes y. subst y. induction es as [|e es IH] using rev_ind.
  - split; [apply mi_init|]. split; [constructor|]. exists (e_clock E 0%nat), [], []. split; [constructor|apply lookup_empty|reflexivity|reflexivity|constructor|eauto].
  - apply Forall_app in Hes as [Hes He]. apply Forall_cons in He as [He _].
    destruct (IH Hes) as (T1 & T2 & created & ops & rest & Hc). clear IH.
    unfold sys_run in *. rewrite fold_left_app. cbn [fold_left]. set (y := fold_left (sys_step E plugins) es sys_init) in *.
    assert (Hl : lines (es ++ [e]) = lines es ++ match e with Recv m => [m] | _ => [] end).
    { unfold lines. rewrite flat_map_app. cbn [flat_map]. rewrite app_nil_r. reflexivity. }
    rewrite Hl. clear Hl. destruct e as [m|i p|i|i]; cbn [sys_step may] in *; rewrite ?app_nil_r.
    + split; [apply mi_receive; assumption|]. split; [exact T2|]. destruct Hc as [H1 H2 H3 H4 H5 H6].
      destruct (picks_snoc _ _ _ m H1) as [P1 P2]. destruct (view (B "m") m key) as [d|] eqn:Ev.
      * assert (Hv : meter_sample m key d) by (apply view_iff; exact Ev). specialize (P1 d Hv).
        destruct (marks ops) as [|v vs] eqn:Em.
        -- specialize (H3 eq_refl). subst ops. clear Em.
           exists (e_clock E (w_clk (snd (now E (p_w (y_st y)))))), [Mark d], rest. split; try assumption; [|discriminate|eauto].
           cbn [y_st]. rewrite meter_one, Ev, H2. unfold meter_new, now. cbn. reflexivity.
        -- assert (Ha : marks (ops ++ [Mark d]) = (v :: vs) ++ [d]) by (rewrite marks_snoc, Em; reflexivity).
           exists created, (ops ++ [Mark d]), rest. split; rewrite ?Ha; try assumption; [|discriminate|].
           ++ cbn [y_st app]. rewrite meter_one, Ev, H2, mrun_snoc. reflexivity.
           ++ rewrite outs_app. cbn [outs]. rewrite app_nil_r. exact H4.
      * exists created, ops, rest. split; try assumption.
        -- apply P2. intros a Ha. eapply view_none; eassumption.
        -- cbn [y_st]. rewrite meter_one, Ev. exact H2.
    + split; [exact T1|]. split; [apply Forall_app; split; [exact T2|]; constructor; [|constructor]; left; apply flush_mgood|].
      destruct Hc as [H1 H2 H3 H4 H5 H6]. exists created, ops, rest. split; try assumption.
      unfold everything in *. cbn [y_out y_live y_gone]. rewrite <- H4. rewrite !flat_map_app. cbn [flat_map].
      assert (Hp : pending (flush E C i p) = []) by reflexivity. rewrite Hp. cbn [app]. rewrite app_nil_r. reflexivity.
    + destruct (y_live y !! i) as [g|] eqn:Hg; [|eauto 8].
      assert (Hgl : mlive g) by (rewrite Forall_lookup in T2; eapply T2; exact Hg).
      destruct (gnext g (y_st y)) as [s' o] eqn:Hn.
      destruct (gnext_mlive g _ _ _ T1 Hgl Hn) as (I1 & I2 & grp & more & I3 & I4 & I5).
      destruct o as [d g'| |x]; cbn [y_st y_live goes_on coming] in *; (split; [exact I1|]).
      * split; [apply Forall_insert; eauto|]. exists created.
        eapply (told_moved _ y created ops rest s'); try reflexivity; try eassumption.
        unfold everything. cbn [y_out y_live y_gone]. rewrite !flat_map_app, (delete_pending _ _ _ Hg), (insert_pending _ _ _ g' Hg).
        change (pending g ++ grp ++ more) with (pending g ++ (grp ++ more)) in I3.
        transitivity (y_out y ++ ((d :: pending g') ++ flat_map pending (delete i (y_live y))) ++ flat_map pending (y_gone y)).
        { rewrite <- app_assoc. reflexivity. }
        rewrite I3. rewrite <- !app_assoc. apply Permutation_app_head, Permutation_app_head.
        rewrite (app_assoc grp more), Permutation_app_comm, <- !app_assoc. reflexivity.
      * split; [apply Forall_delete; exact T2|]. exists created.
        eapply (told_moved _ y created ops rest s'); try reflexivity; try eassumption.
        unfold everything. cbn [y_out y_live y_gone]. rewrite !flat_map_app, (delete_pending _ _ _ Hg).
        apply Permutation_nil in I3. apply app_eq_nil in I3 as [-> I3]. rewrite I3, app_nil_r. reflexivity.
      * split; [apply Forall_delete; exact T2|]. exists created.
        eapply (told_moved _ y created ops rest s'); try reflexivity; try eassumption.
        unfold everything. cbn [y_out y_live y_gone]. rewrite !flat_map_app, (delete_pending _ _ _ Hg).
        apply Permutation_nil in I3. apply app_eq_nil in I3 as [-> I3]. rewrite I3, app_nil_r. reflexivity.
    + destruct (y_live y !! i) as [g|] eqn:Hg; [|eauto 8]. cbn [y_st y_live]. split; [exact T1|]. split; [apply Forall_delete; exact T2|].
      destruct Hc as [H1 H2 H3 H4 H5 H6]. exists created, ops, rest. split; try assumption.
      unfold everything in *. cbn [y_out y_live y_gone]. rewrite <- H4, !flat_map_app, (delete_pending _ _ _ Hg). cbn [flat_map].
      rewrite app_nil_r. apply Permutation_app_head. rewrite (Permutation_app_comm (pending g)), <- app_assoc.
      apply Permutation_app_head. apply Permutation_app_comm.
Qed.
End meters.
