(** What the metric pages show. *)
From Verif Require Import Base StrFacts Num NumFacts Env Stats Glob Metrics Gen GenFacts Processor Configurable
  LineSpec LineFacts FloatFacts ProcFacts ProcSpec ReceiveFacts Sched SchedFacts CSched TimerFacts XQFacts TimerXQ SampleFacts EwmaFacts VarianceFacts PercFacts BinFacts
  StatsDerived TimerHist ConfFacts ConfInv ConfFlush ConfXQ ConfDerived LogFacts Http.
From Coq Require Import QArith Qcanon Qround Lqa.
Open Scope Z_scope.

(** ** Specification *)
(** [kept] is a sample of [qs]: all of them up to 1028 *)
Definition sample_of (qs kept : list Qc) : Prop :=
  picked (NN := XQ (fun q => q)) (fins qs) (fins kept) /\ length kept = Nat.min (length qs) reservoir_1028 /\
  ((length qs <= reservoir_1028)%nat -> kept = qs).
(** what the page of a timer with the durations [qs] shows: the largest and smallest of them
    and the number of sampled ones in each part of the sample's range; it cannot be shown
    when all sampled durations are equal *)
Inductive shows (sq : Qc -> Qc) (qs : list Qc) : page (NN := XQ sq) -> Prop :=
| sh_none : qs = [] -> shows sq qs (TimerPage (NN := XQ sq) (counts (replicate 10 0)) (Fin (QcZ 0)) (Fin (QcZ 0)))
| sh_flat kept q : sample_of qs kept -> qs <> [] -> Forall (fun v => v = q) kept -> shows sq qs (PageFails (NN := XQ sq) ZeroDivisionError)
| sh_bins kept lo hi mx mn zs n : sample_of qs kept -> lowest kept lo -> highest kept hi -> lo <> hi ->
    highest qs mx -> lowest qs mn -> n = 1 + Z.log2_up (Z.of_nat (length qs)) ->
    Z.of_nat (length zs) = n -> zsum zs = Z.of_nat (length kept) ->
    (forall j, 0 <= j < n -> zs !! Z.to_nat j = Some (Z.of_nat (length (filter (fun v => in_bin lo hi n j v = true) kept)))) ->
    shows sq qs (TimerPage (NN := XQ sq) (counts zs) (Fin mx) (Fin mn)).

Section xq.
Context (sq : Qc -> Qc) (E : env (NN := XQ sq)) (prefix internal : str) (plugins : list (factory (NN := XQ sq))).
Notation NN := (XQ sq).
Notation num := (@Num.num NN).
Notation creached := (creached (NN := NN) E prefix internal plugins).
Notation cflush := (cflush (NN := NN) E prefix internal plugins).

Lemma timer_shows key all since last (t : timer (NN := NN)) ds : timer_after E key prefix all since last t ->
  since = fins ds -> shows sq (List.filter (fun q => Qc_leb 0 q) ds) (timer_page t).
Proof.
  intros (_ & _ & _ & _ & Hh) ->. rewrite kept_fins in Hh. set (qs := List.filter _ ds) in *. clearbody qs.
  destruct (hreach_inv _ _ _ _ _ Hh) as [_ Hsam].
  assert (Hlen : length (fins qs) = length qs) by apply map_length.
  apply hreach_run in Hh as (F & ops & Hh & Hrec).
  pose proof (histogram_exact sq F ops reservoir_1028 world0 qs reservoir_pos Hrec) as Hhist.
  pose proof (hist_extrema (NN := NN) F (XQ_ord sq) ops (us_new reservoir_1028) world0) as Hext.
  rewrite Hrec in Hext. specialize (Hext (fins_ok sq qs)). cbn zeta in Hhist. rewrite <- Hh in Hhist, Hext.
  destruct Hhist as [P1 P2]. destruct Hext as [X1 X2]. unfold timer_page.
  destruct qs as [|q qs].
  - rewrite (P1 eq_refl). destruct (X2 eq_refl) as [-> ->]. apply sh_none. reflexivity.
  - set (k := q :: qs) in *. assert (Hne : k <> []) by discriminate.
    destruct (P2 Hne) as (kp & lo & hi & K1 & K2 & K3 & K4 & K5 & K6).
    destruct (X1 ltac:(discriminate)) as [G L]. apply greatest_highest in G as (mx & -> & G). apply least_lowest in L as (mn & -> & L).
    pose proof (us_get_length (NN := NN) _ _ _ Hsam) as Hgl. destruct Hsam as (_ & _ & Hpk & Hall).
    rewrite K1 in Hpk, Hgl, Hall.
    assert (Hs : sample_of k kp).
    { split; [exact Hpk|]. split.
      - transitivity (length (fins kp)); [symmetry; apply map_length|]. etransitivity; [exact Hgl|]. f_equal. exact Hlen.
      - intros Hle. assert (He : fins kp = fins k). { apply Hall. change (length (fins k) <= reservoir_1028)%nat. rewrite Hlen. exact Hle. }
        apply fins_inj. exact He. }
    destruct (Qc_eq_dec lo hi) as [He|He].
    + rewrite (K5 He). apply (sh_flat _ _ kp lo Hs Hne). apply Forall_forall. intros v Hv.
      destruct K3 as [_ K3], K4 as [_ K4]. rewrite <- He in K4. apply Qcle_antisym; [apply K4|apply K3]; exact Hv.
    + destruct (K6 He) as (zs & n & -> & Hn & Z1 & Z2 & Z3).
      eapply sh_bins; [exact Hs|exact K3|exact K4|exact He|exact G|exact L|exact Hn|exact Z1|exact Z2|exact Z3].
Qed.

(** in any reached state, of what was received a final part is shown *)
Lemma page_reached es key all : picks (value_line (NN := NN) (B "ms") key) (lines es) all ->
  (all = [] -> cp_page (creached es) key = NoPage) /\
  (all <> [] -> exists before since, all = before ++ since /\
     forall ds, since = fins ds -> shows sq (List.filter (fun q => Qc_leb 0 q) ds) (cp_page (creached es) key)).
Proof.
  intros Hall. destruct (ctimer_history (NN := NN) E prefix internal plugins es key) as (all' & Hall' & Ht).
  rewrite <- (picks_fun _ _ _ _ (value_line_fun (NN := NN) _ key) Hall Hall') in Ht. unfold cp_page.
  destruct (p_timer (creached es) !! key) as [t|] eqn:Et.
  - destruct Ht as (Hne & before & since & last & Hb & Ht). split; [contradiction|]. intros _.
    exists before, since. split; [exact Hb|]. intros ds Hds. eapply timer_shows; eassumption.
  - split; [|contradiction]. intros _. destruct (p_plug _ !! _); reflexivity.
Qed.

(** after a completed flush exactly the durations received since are shown *)
Lemma page_since_flush es i p s1 l1 ls key ds :
  grun (cflush i p) (creached es) = (s1, l1, None) ->
  (exists v, last_value (NN := NN) (B "ms") key (lines es) v) ->
  picks (value_line (NN := NN) (B "ms") key) ls (fins ds) ->
  shows sq (List.filter (fun q => Qc_leb 0 q) ds) (cp_page (creceive_all (NN := NN) E prefix internal plugins ls s1) key).
Proof.
  intros H1 [v0 Hv0] Hp.
  destruct (completed (NN := NN) E prefix internal plugins es i p s1 l1 H1) as (ts1 & zs & tk & vs & rest & Hts1 & _ & _ & (Htk & Hok) & _ & Ht1).
  destruct (ctimer_history (NN := NN) E prefix internal plugins es key) as (all & Hall & Ht).
  destruct (p_timer (creached es) !! key) as [t0|] eqn:Et0.
  2:{ exfalso. destruct Hv0 as (vs0 & Hvs0 & Hl0). rewrite (picks_fun _ _ _ _ (value_line_fun (NN := NN) _ key) Hvs0 Hall), Ht in Hl0. discriminate. }
  destruct Ht as (_ & before & since & last0 & _ & Ha).
  assert (Hclear : fst (timer_report (NN := NN) t0 ts1) = timer_clear t0 (nofZ (Num := NN) ts1)).
  { rewrite Forall_forall in Hok. destruct (Hok (key, t0)) as [o Ho]; [rewrite Htk; apply elem_of_map_to_list; exact Et0|].
    cbn [fst snd gct] in Ho. destruct (snd (timer_report t0 ts1)) as [ms|] eqn:Em; [|discriminate]. eapply timer_report_ok. exact Em. }
  assert (Hs1 : p_timer s1 !! key = Some (timer_clear t0 (nofZ (Num := NN) ts1))).
  { rewrite Ht1, lookup_fmap, Et0. cbn. f_equal. exact Hclear. }
  apply (timer_after_clear E key prefix all since last0 t0 (nofZ (Num := NN) ts1)) in Ha.
  destruct (timer_lines_after (NN := NN) E prefix internal plugins ls s1 key _ _ _ _ (fins ds) Hs1 Ha Hp) as (t' & Ht' & Ha').
  unfold cp_page. rewrite Ht'. eapply timer_shows; [exact Ha'|reflexivity].
Qed.
End xq.

(** the page exists for exactly the timers received, whatever they received *)
Lemma page_exists (NN : Num.Num) E prefix internal plugins es key :
  cp_page (creached (NN := NN) E prefix internal plugins es) key <> NoPage <->
  exists v, last_value (NN := NN) (B "ms") key (lines es) v.
Proof.
  rewrite <- (timer_domain E prefix internal plugins), elem_of_dom. unfold cp_page.
  destruct (p_timer _ !! _) as [t|].
  - split; [eauto|]. intros _. unfold timer_page. destruct (h_histogram _); discriminate.
  - split; [|intros [x Hx]; discriminate]. intros H. exfalso. apply H. destruct (p_plug _ !! _); reflexivity.
Qed.
(** the compliant processor has no page for any metric *)
Lemma page_never (NN : Num.Num) (s : mst (NN := NN)) key : mp_page s key = NoPage.
Proof. unfold mp_page. destruct (p_timer s !! key) as [[|]|]; try reflexivity; destruct (p_plug s !! key); reflexivity. Qed.
