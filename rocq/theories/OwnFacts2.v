(** The daemon's own statistics reach the processor, and what flushes make of them. *)
From Verif Require Import Base StrFacts Num NumFacts Env Stats Glob Metrics Gen GenFacts Processor Configurable
  LineSpec LineFacts FloatFacts ProcFacts ProcSpec ReceiveFacts ReceiveFacts2 ReceiveFacts3
  Sched FlushInv FlushOk SchedFacts HistFacts FlushSpec FlushDerived StepFacts CSched ConfFacts ConfDerived
  Client Router RouterSpec RouterFacts RouterProps Server ServerSpec FrameFacts ServerFacts
  ClientMetrics ClientServer ReportSpec Daemon DaemonFacts CDaemon Own OwnSpec OwnFacts.
Open Scope Z_scope.

(** ** the text of a number is ASCII *)
Lemma float_ascii s v : float_text s v -> plain_text s.
Proof.
  unfold plain_text.
  assert (Hws : forall l, all_in ws_chars l -> forall c, In c l -> code c < 128).
  { intros l Hl c Hi. apply Hl in Hi. repeat destruct Hi as [<-|Hi]; try (vm_compute; reflexivity). destruct Hi. }
  assert (Hdig : forall l n, digits_of l n -> forall c, In c l -> code c < 128).
  { intros l n Hd c Hi. apply digits_of_iff in Hd as [Hd _]. rewrite forallb_forall in Hd. apply Hd in Hi. unfold is_digit in Hi. lia. }
  assert (Hsg : forall l n, sign_of l n -> forall c, In c l -> code c < 128).
  { intros l n Hs c Hi. inversion Hs; subst; cbn in Hi; repeat destruct Hi as [<-|Hi]; try contradiction; vm_compute; reflexivity. }
  assert (Hex : forall l n, exp_of l n -> forall c, In c l -> code c < 128).
  { intros l n He c. inversion He as [|e sg neg t x Hee Hg Hne Hd]; subst; [intros []|].
    cbn [In]. rewrite in_app_iff. intros [<-|[Hi|Hi]]; [destruct Hee as [->| ->]; vm_compute; reflexivity|exact (Hsg _ _ Hg _ Hi)|exact (Hdig _ _ Hd _ Hi)]. }
  assert (Hwd : forall l w, word l w -> (forall c, In c w -> code c < 128) -> forall c, In c l -> code c < 128).
  { intros l w Hw. induction Hw as [|a b l w Hab Hw IH]; intros Hl c; [intros []|].
    intros [<-|Hi]; [|apply IH; [intros c' Hc'; apply Hl; right; exact Hc'|exact Hi]].
    specialize (Hl b (or_introl eq_refl)). destruct Hab as [->|[_ Hab]]; [exact Hl|]. unfold code in *. lia. }
  assert (Hlow : forall w, forallb is_ascii w = true -> forall c, In c w -> code c < 128) by (intros w; apply ascii_iff).
  intros H c. destruct H as [l sg neg b r v Hl Hr Hg Hb]. rewrite !in_app_iff.
  intros [Hi|[Hi|[Hi|Hi]]]; [exact (Hws _ Hl _ Hi)|exact (Hsg _ _ Hg _ Hi)| |exact (Hws _ Hr _ Hi)].
  destruct Hb as [b Hw|b Hw|b Hw|ip m ex x Hne Hd He|ip fp m ex x Hne Hd He].
  - refine (Hwd _ _ Hw (Hlow _ _) _ Hi). reflexivity.
  - refine (Hwd _ _ Hw (Hlow _ _) _ Hi). reflexivity.
  - refine (Hwd _ _ Hw (Hlow _ _) _ Hi). reflexivity.
  - rewrite in_app_iff in Hi. destruct Hi as [Hi|Hi]; [exact (Hdig _ _ Hd _ Hi)|exact (Hex _ _ He _ Hi)].
  - rewrite !in_app_iff in Hi. destruct Hi as [Hi|[Hi|[Hi|Hi]]].
    + eapply Hdig; [exact Hd|]. apply in_app_iff; auto.
    + cbn in Hi. destruct Hi as [<-|[]]; vm_compute; reflexivity.
    + eapply Hdig; [exact Hd|]. apply in_app_iff; auto.
    + eapply Hex; eauto.
Qed.

(** ** lines no rule matches, for any reading of lines that looks at the metric only *)
Section skipped.
Context (G : engine) (rws : list rule_text).
Definition reads_metric {A} (P : str -> A -> Prop) : Prop :=
  (forall m m' a, (forall t k fs, typed_line m t k fs <-> typed_line m' t k fs) -> P m a -> P m' a) /\
  (forall m a, P m a -> exists t k fs, typed_line m t k fs).
Lemma skipped_reads {A} (P : str -> A -> Prop) m ts : reads_metric P -> unmatched rws m -> delivers G rws m ts ->
  forall l, picks P ts l <-> picks P [m] l.
Proof.
  intros [HP HT] Hu Hd.
  assert (Hone : forall t k fs t' k' fs' sent, typed_line m t k fs -> routes G 0 rws [(t, k, fs)] [(t', k', fs')] sent ->
    forall x, P (text_of (t', k', fs')) x <-> P m x).
  { intros t k fs t' k' fs' sent0 Ht Hro.
    destruct (routes_fun G _ _ _ _ _ _ _ Hro (routes_skip G _ rws (Hu _ _ _ Ht) 0)) as [Ho _]. injection Ho as -> -> ->.
    assert (Ht2 : typed_line (text_of (t, k, fs)) t k fs).
    { eapply type_restored; [exact Ht|]. apply typed_line_decode in Ht as (raw & _ & <-). apply normalize_key_alphabet. }
    assert (Hsame : forall t1 k1 fs1, typed_line (text_of (t, k, fs)) t1 k1 fs1 <-> typed_line m t1 k1 fs1).
    { intros t1 k1 fs1. split; intros H; [destruct (typed_line_fun _ _ _ _ _ _ _ H Ht2) as (-> & -> & ->)|
        destruct (typed_line_fun _ _ _ _ _ _ _ H Ht) as (-> & -> & ->)]; assumption. }
    intros x. split; apply HP; [exact Hsame|]. intros t1 k1 fs1. symmetry. apply Hsame. }
  destruct Hd as [Hn|t k fs Ht Hn|t k fs sent Ht Hro|t k fs t' k' fs' sent Ht Hro Ht'].
  - intros l. split; intros H.
    + inversion H; subst. apply picks_miss; [|constructor]. intros a Ha. destruct (HT _ _ Ha) as (t & k & fs & Ht). eapply Hn, Ht.
    + inversion H as [|? ? ? ? Hc|]; subst; [|assumption]. destruct (HT _ _ Hc) as (t & k & fs & Ht). exfalso. eapply Hn, Ht.
  - exfalso. apply Hn. do 2 eexists. apply routes_skip, Hu, Ht.
  - destruct (routes_fun G _ _ _ _ _ _ _ Hro (routes_skip G _ rws (Hu _ _ _ Ht) 0)) as [Ho _]. discriminate.
  - specialize (Hone _ _ _ _ _ _ _ Ht Hro). intros l. split; intros H.
    + inversion H as [|? ? ? ? Hc Hk|? ? ? Hc Hk]; subst; inversion Hk; subst.
      * apply picks_hit; [apply Hone, Hc|constructor].
      * apply picks_miss; [|constructor]. intros a Hx. apply (Hc a), Hone, Hx.
    + inversion H as [|? ? ? ? Hc Hk|? ? ? Hc Hk]; subst; inversion Hk; subst.
      * apply picks_hit; [apply Hone, Hc|constructor].
      * apply picks_miss; [|constructor]. intros a Hx. apply (Hc a), Hone, Hx.
Qed.
Lemma skipped_reads_all {A} (P : str -> A -> Prop) ms tss : reads_metric P -> Forall (unmatched rws) ms -> Forall2 (delivers G rws) ms tss ->
  forall l, picks P (concat tss) l <-> picks P ms l.
Proof.
  intros HP Hu H. induction H as [|m ts ms tss Hd _ IH]; intros l; [reflexivity|].
  inversion_clear Hu as [|? ? Hm Hu']. cbn [concat]. change (m :: ms) with ([m] ++ ms). split; intros Hp.
  - apply picks_split in Hp as (x & y & -> & Hx & Hy). apply picks_join; [apply (skipped_reads P m ts); assumption|apply IH; assumption].
  - apply picks_split in Hp as (x & y & -> & Hx & Hy). apply picks_join; [apply (skipped_reads P m ts); assumption|apply IH; assumption].
Qed.
End skipped.
Lemma value_reads `{NN : Num} t key : reads_metric (ConfFacts.value_line t key).
Proof.
  split; [|intros m a (f0 & fs & H & _); eauto]. intros m m' a Hs (f0 & fs & H & Hr). exists f0, fs. split; [apply Hs, H|exact Hr].
Qed.
Lemma gauge_reads `{NN : Num} : reads_metric (fun m '(v, key) => gauge_sample m key v).
Proof.
  split; [|intros m [v k] (f0 & fs & H & _); eauto]. intros m m' [v k] Hs (f0 & fs & H & Hr). exists f0, fs. split; [apply Hs, H|exact Hr].
Qed.

(** ** own lines are accepted *)
Section accepted.
Context `{NN : Num} {TM CM GM : Type} (E : env) (C : @cls NN TM CM GM) (G : engine).
Notation st := (pst TM CM GM).
Context (HC : plain_class C) (HG : forall k v s, snd (c_compose_gauge C k v s) = Ok tt).
Context (interval percent : Z) (cfg : mon) (max : nat) (closes : bool) (refuses : nat -> dp -> option exn).
Context (config : str) (ls : list lspec) (rs : list (rule G)) (rws : list rule_text).
Context (Hb : build_rules G true config [] = (ls, Ok rs)) (Hr : rules_of config rws).
Context (CE : cenv) (ext : bool) (instance : str).
Notation inner := (process_message E C).
Notation fl := (flush E C interval percent).
Notation step := (dstep (S := st) G inner fl rs cfg max closes refuses).
Notation run := (drun (S := st) G inner fl rs cfg max closes refuses).
Notation ostep := (ostep (S := st) G inner fl rs cfg max closes refuses CE ext instance).
Notation orun := (orun (S := st) G inner fl rs cfg max closes refuses CE ext instance).
Notation text := (gauge_text CE).
Notation item_text := (item_text CE instance).
Notation full := (full instance).

Lemma gauge_fine m key v (s : st) : gauge_sample m key v -> snd (process E C m s) = Ok tt.
Proof using HG.
  intros (f0 & fs & Ht & Hv). rewrite process_decode. apply typed_line_decode in Ht as (raw & -> & Hk). cbn [fst snd].
  unfold process_message, bnd, time_. cbn [str_eqb]. change (str_eqb (B "g") (B "c")) with false. change (str_eqb (B "g") (B "ms")) with false.
  change (str_eqb (B "g") (B "g")) with true. cbv iota. unfold process_gauge_metric.
  apply reads_iff in Hv. rewrite (float_one_part _ _ Hv), Hv.
  destruct (now E (p_w s)) as [t0 w0].
  match goal with |- context [c_compose_gauge C ?k ?v ?s'] => pose proof (HG k v s') as H; destruct (c_compose_gauge C k v s') as [s1 r1] end.
  cbn [snd] in H. subst r1. unfold finish_message, bnd, mod_, time_.
  destruct (p_ptime _ !! B "g"); destruct (now E _); reflexivity.
Qed.
Lemma own_fine q v x (s : @rst st) : sound_item CE (q, v) x -> unmatched rws (text q v) -> length (r_links s) = length ls ->
  snd (r_process G inner rs (text q v) s) = Ok tt.
Proof using HC HG Hb Hr.
  intros (Hq & Hv & Hk) Hu Hl.
  destruct (transparent_step E C G rws rs (text q v) s (r_proc s) HC (whole_built G config ls rs rws s Hb Hr Hl) Hu eq_refl) as (s' & r & -> & _ & _ & ->).
  eapply gauge_fine. apply (value_samples q (show CE v) (fst x) Hq Hv).
Qed.
Lemma sound_plain q v x : sound_item CE (q, v) x -> plain_text (text q v).
Proof.
  intros ((_ & _ & Hq) & (l & Hf & _) & _) c. unfold gauge_text. rewrite !in_app_iff. intros [H|[H|[H|H]]].
  - specialize (Hq c H). unfold code. lia.
  - repeat destruct H as [<-|H]; try contradiction; vm_compute; reflexivity.
  - exact (float_ascii _ _ Hf c H).
  - repeat destruct H as [<-|H]; try contradiction; vm_compute; reflexivity.
Qed.
Definition fits (l : list (str * val)) : Prop :=
  (exists xs, Forall2 (sound_item CE) l xs) /\ Forall (fun i => unmatched rws (text (fst i) (snd i))) l.
Lemma fits_app l l' : fits (l ++ l') -> fits l /\ fits l'.
Proof.
  intros [[xs H1] H2]. apply Forall_app in H2 as [H3 H4]. apply Forall2_app_inv_l in H1 as (x & y & H5 & H6 & _).
  split; split; eauto.
Qed.
Lemma report_fine items : forall c d, gauges c -> length (r_links (v_proc (d_srv d))) = length ls ->
  fits (map (fun i => (full (fst i), snd i)) items) ->
  exists c1, gauges c1 /\ own_items (S := st) G inner fl rs cfg max closes refuses CE ext instance items c d =
    (c1, run d (map DInternal (map item_text items)), Ok tt).
Proof using HC HG Hb Hr.
  induction items as [|[n v] items IH]; intros c d Hc Hl Hf; [exists c; split; [exact Hc|reflexivity]|].
  cbn [Own.own_items map]. change (if Base.nonempty instance then instance ++ B "." ++ n else n) with (full n).
  destruct (gauge_call (S := st) G inner fl rs cfg max closes refuses CE ext (full n) v c d Hc) as (c1 & Hc1 & ->).
  cbn [map fst snd] in Hf. destruct Hf as [[xs Hx] Hu]. inversion Hx as [|? x ? xs' Hx1 Hx2]; subst. inversion_clear Hu as [|? ? Hu1 Hu2].
  pose proof (sound_plain _ _ _ Hx1) as Ha. apply ascii_iff in Ha. rewrite Ha. cbn [fst snd] in Hu1.
  rewrite (own_fine _ _ _ _ Hx1 Hu1 Hl).
  destruct (IH c1 (step d (DInternal (text (full n) v))) Hc1) as (c2 & Hc2 & Ho).
  - apply (links_step E C G interval percent cfg max closes refuses config ls rs Hb), Hl.
  - split; [exists xs'; exact Hx2|exact Hu2].
  - exists c2. split; [exact Hc2|]. rewrite Ho. reflexivity.
Qed.
Lemma names_full ns qs : Forall2 (named instance) ns qs <-> qs = map full ns.
Proof.
  revert qs. induction ns as [|n ns IH]; intros qs; cbn [map].
  - split; [intros H; inversion H; reflexivity|intros ->; constructor].
  - split.
    + intros H. inversion H as [|? q ? qs' Hq Hqs]; subst. apply full_named in Hq as ->. apply IH in Hqs as ->. reflexivity.
    + intros ->. constructor; [apply full_named; reflexivity|apply IH; reflexivity].
Qed.
Lemma zip_items (items : list (str * val)) : zip (map full (map fst items)) (map snd items) = map (fun i => (full (fst i), snd i)) items.
Proof. induction items as [|i items IH]; [reflexivity|]. cbn. f_equal. exact IH. Qed.
Lemma failures_app (h h' : list (oevent (NN := NN))) : failures (h ++ h') = failures h ++ failures h'.
Proof. induction h as [|[e|[i|e]|v] h IH]; cbn; try exact IH; [reflexivity|]. f_equal. exact IH. Qed.
Lemma reported_fine d h l : length (r_links (v_proc (d_srv d))) = length ls -> reported instance h l -> fits l ->
  exists es, all_written CE instance h es /\ o_daemon (orun (o_new d) h) = run d es /\
    o_logged (orun (o_new d) h) = failures h /\ gauges (o_client (orun (o_new d) h)).
Proof using HC HG Hb Hr.
  intros Hl H. induction H as [|h l e H IH|h l items qs H IH Hn|h l e H IH|h l v H IH]; intros Hf.
  - exists []. repeat split; try constructor. apply gauges_new.
  - destruct (IH Hf) as (es & H1 & H2 & H3 & H4). exists (es ++ [e]). rewrite orun_snoc. cbn [Own.ostep o_daemon o_logged o_client].
    split; [constructor; exact H1|]. split; [rewrite H2, run_app'; reflexivity|]. split; [|exact H4]. rewrite failures_app, H3. cbn. rewrite app_nil_r. reflexivity.
  - apply names_full in Hn as ->. rewrite zip_items in Hf. apply fits_app in Hf as [Hf1 Hf2].
    destruct (IH Hf1) as (es & H1 & H2 & H3 & H4). exists (es ++ map DInternal (map item_text items)). rewrite orun_snoc. cbn [Own.ostep own_report].
    set (w := orun (o_new d) h) in *.
    destruct (report_fine items (o_client w) (o_daemon w) H4) as (c1 & Hc1 & Ho); [|exact Hf2|].
    { rewrite H2. apply (links_run E C G interval percent cfg max closes refuses config ls rs Hb), Hl. }
    match goal with |- context [Own.own_items ?a1 ?a2 ?a3 ?a4 ?a5 ?a6 ?a7 ?a8 ?a9 ?b1 ?b2 ?b3 ?b4 ?b5] =>
      change (Own.own_items a1 a2 a3 a4 a5 a6 a7 a8 a9 b1 b2 b3 b4 b5) with
        (own_items (S := st) G inner fl rs cfg max closes refuses CE ext instance items (o_client w) (o_daemon w)) end.
    rewrite Ho. cbn [o_daemon o_logged o_client]. split; [apply aw_report; [exact H1|]; apply items_text; reflexivity|].
    split; [rewrite H2, run_app'; reflexivity|]. split; [|exact Hc1]. rewrite failures_app, H3. reflexivity.
  - destruct (IH Hf) as (es & H1 & H2 & H3 & H4). exists es. rewrite orun_snoc. cbn [Own.ostep own_report o_daemon o_logged o_client].
    split; [constructor; exact H1|]. split; [exact H2|]. split; [|exact H4]. rewrite failures_app, H3. reflexivity.
  - apply fits_app in Hf as [Hf1 [[xs Hx] Hu]]. inversion Hx as [|? x ? xs' Hx1 Hx2]; subst. inversion_clear Hu as [|? ? Hu1 Hu2].
    destruct (IH Hf1) as (es & H1 & H2 & H3 & H4). exists (es ++ [DInternal (text (B "delay") v)]). rewrite orun_snoc. cbn [Own.ostep].
    set (w := orun (o_new d) h) in *.
    destruct (gauge_call (S := st) G inner fl rs cfg max closes refuses CE ext (B "delay") v (o_client w) (o_daemon w) H4) as (c1 & Hc1 & ->).
    pose proof (sound_plain _ _ _ Hx1) as Ha. apply ascii_iff in Ha. rewrite Ha. cbn [o_daemon o_logged o_client].
    split; [constructor; exact H1|]. split; [rewrite H2, run_app'; reflexivity|]. split; [|exact Hc1]. rewrite failures_app, H3. cbn. rewrite app_nil_r. reflexivity.
Qed.

(** the own lines are among those the router handled, in order *)
Lemma order_run es : forall d, exists x, d_order (run d es) = d_order d ++ x /\ own es `sublist_of` x.
Proof.
  induction es as [|e es IH]; intros d; [exists []; rewrite app_nil_r; split; [reflexivity|constructor]|].
  change (run d (e :: es)) with (run (step d e) es). destruct (IH (step d e)) as (x & Hx & Hs).
  destruct e as [e|m| |i l|i]; cbn [own flat_map].
  - destruct (order_more E C G interval percent cfg max closes refuses rs d (DNet e)) as [y Hy].
    exists (y ++ x). rewrite Hx, Hy, app_assoc. split; [reflexivity|]. apply sublist_inserts_l. exact Hs.
  - exists (m :: x). rewrite Hx. cbn [dstep]. destruct (r_process G inner rs m (v_proc (d_srv d))) as [p r]. cbn [d_order].
    rewrite <- app_assoc. split; [reflexivity|]. apply sublist_skip. exact Hs.
  - exists x. split; [exact Hx|exact Hs].
  - exists x. split; [exact Hx|exact Hs].
  - destruct (order_more E C G interval percent cfg max closes refuses rs d (DStep i)) as [y Hy].
    exists (y ++ x). rewrite Hx, Hy, app_assoc. split; [reflexivity|]. apply sublist_inserts_l. exact Hs.
Qed.
Lemma own_app es es' : own (es ++ es') = own es ++ own es'.
Proof. apply flat_map_app. Qed.
Lemma own_internal ms : own (map DInternal ms) = ms.
Proof. unfold own. induction ms as [|m ms IH]; [reflexivity|]. cbn. f_equal. exact IH. Qed.
Lemma reported_own h es : all_written CE instance h es -> forall l, reported instance h l ->
  map (fun i => text (fst i) (snd i)) l `sublist_of` own es.
Proof.
  induction 1 as [|h es e _ IH|h es items ms _ IH Hi|h es e _ IH|h es v _ IH]; intros l Hl.
  - inversion Hl; subst; [constructor|..]; match goal with H : _ ++ [_] = [] |- _ => apply app_eq_nil in H as [_ H]; discriminate end.
  - rewrite own_app. inversion Hl as [Hx|? ? ? Hh Hx|? ? ? ? ? ? Hx|? ? ? ? Hx|? ? ? ? Hx]; try (symmetry in Hx; apply app_eq_nil in Hx as [_ Hx]; discriminate);
      apply app_inj_tail in Hx as [-> Hx]; try discriminate. subst. apply sublist_inserts_r, IH. assumption.
  - rewrite own_app, own_internal. inversion Hl as [Hx|? ? ? ? Hx|? ? its qs Hh Hn Hx|? ? ? ? Hx|? ? ? ? Hx]; try (symmetry in Hx; apply app_eq_nil in Hx as [_ Hx]; discriminate);
      apply app_inj_tail in Hx as [-> Hx]; try discriminate. injection Hx as ->. subst l.
    rewrite map_app. apply sublist_app; [apply IH; assumption|]. apply names_full in Hn as ->. rewrite zip_items, map_map.
    apply items_text in Hi as ->. reflexivity.
  - inversion Hl as [Hx|? ? ? ? Hx|? ? ? ? ? ? Hx|? ? ? Hh Hx|? ? ? ? Hx]; try (symmetry in Hx; apply app_eq_nil in Hx as [_ Hx]; discriminate);
      apply app_inj_tail in Hx as [-> Hx]; try discriminate. subst. apply IH. assumption.
  - rewrite own_app. inversion Hl as [Hx|? ? ? ? Hx|? ? ? ? ? ? Hx|? ? ? ? Hx|? ? ? Hh Hx]; try (symmetry in Hx; apply app_eq_nil in Hx as [_ Hx]; discriminate);
      apply app_inj_tail in Hx as [-> Hx]; try discriminate. injection Hx as ->. subst l.
    rewrite map_app. apply sublist_app; [apply IH; assumption|]. reflexivity.
Qed.
End accepted.
