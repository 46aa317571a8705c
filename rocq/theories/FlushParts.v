(** A completed undisturbed flush in the terms of FlushSpec.v *)
From Verif Require Import Base StrFacts Num Env Stats Glob Metrics Gen GenFacts Processor
  LineSpec LineFacts FloatFacts ProcFacts ProcSpec ReceiveFacts ReceiveFacts2 ReceiveFacts3 PlugFacts
  Sched FlushInv FlushOk SchedFacts FlushRun FlushStages FlushComp FlushFail TimerFacts FlushSpec.

Section parts.
Context `{NN : Num} (E : env) (plugins : list factory).
Notation C := (mp_cls E plugins).

Lemma starts_app p x : starts p (p ++ x). Proof. exists x. reflexivity. Qed.
Lemma named_weaken p q d : starts q p -> named p d -> named q d.
Proof. intros [r ->] [x H]. exists (r ++ x). rewrite H, <- app_assoc. reflexivity. Qed.

Lemma out_gc i ts kv : i <> 0 -> out_of (gc i ts) kv = counter_lines i ts kv.
Proof. intros Hi. unfold out_of, gc. cbn [snd]. destruct (i =? 0) eqn:Ez; [lia|]. reflexivity. Qed.
Lemma out_gt_named p ts kv : Forall (named (B "stats.timers.")) (out_of (gt p ts) kv).
Proof.
  unfold out_of, gt. cbn [snd]. destruct (snd kv) as [|x v]; [constructor|].
  destruct (timer_stats p (x :: v)) as [[[[[a b] c] d] e]|e]; [|constructor].
  unfold timer_items, timer_prefix. each; apply starts_app.
Qed.
Lemma out_gm_named ts k m : me_prefix m = B "stats.meter." -> Forall (named (B "stats.meter.")) (out_of (gm ts) (k, m)).
Proof.
  intros Hp. unfold out_of, gm. cbn [fst snd]. pose proof (meter_report_items m ts) as H.
  destruct (snd (meter_report m ts)) as [ms|e]; [|constructor]. eapply Forall_impl; [apply H; reflexivity|].
  intros d (suf & _ & Hd). unfold named. rewrite Hd, Hp. apply starts_app.
Qed.
Lemma fp_named ts k q wa o q' wb : plug_named k q -> fp E ts k q wa = (q', Ok (Some o), wb) ->
  Forall (fun d => named (B "stats.SLI.") d \/ named (B "stats.pdistinct.") d) o.
Proof.
  intros Hn H. unfold fp in H. destruct (plug_flush E q ts wa) as [[q1 r] w1] eqn:Eq.
  destruct r as [ms|e]; [|discriminate]. injection H as _ <- _. destruct q as [x|d]; cbn [plug_flush plug_named] in *.
  - pose proof (sli_flush_items E x ts wa) as Hs. destruct (sli_flush E x ts wa) as [[x' l] w']. cbn [fst snd] in Hs.
    injection Eq as _ <- _. eapply Forall_impl; [exact Hs|]. intros d Hd. left. unfold named. rewrite Hn in Hd.
    destruct Hd as [[lb ->]|(suf & _ & ->)]; rewrite <- !app_assoc; apply starts_app.
  - pose proof (dmetric_flush_items E d ts wa) as Hs. destruct (dmetric_flush E d ts wa) as [r' w']. cbn [fst] in Hs.
    injection Eq as _ -> _. destruct Hn as (P1 & _). eapply Forall_impl; [apply Hs; reflexivity|].
    intros x (suf & _ & Hx). right. unfold named. rewrite Hx, P1. apply starts_app.
Qed.

Lemma Forall_flat_map {A D} (P : D -> Prop) (f : A -> list D) l :
  Forall (fun a => Forall P (f a)) l -> Forall P (flat_map f l).
Proof. induction 1; cbn; [constructor|apply Forall_app; auto]. Qed.

Lemma flush_parts i p (s s' : mst) l : Inv s -> 1000 <= i ->
  grun (flush E C i p) s = (s', l, None) ->
  exists ts ck tk lm lp,
    ntrunc (e_clock E (w_clk (p_w s))) = Ok ts /\
    ck ≡ₚ map_to_list (p_counter s) /\
    (tk ≡ₚ map_to_list (p_timer s) /\
     Forall (fun kv => snd kv <> [] -> exists t, timer_stats p (snd kv) = Ok t) tk) /\
    (exists mk, mk ≡ₚ map_to_list (p_meter s) /\
       Forall (fun kv => exists ms, snd (meter_report (snd kv) ts) = Ok ms) mk /\
       lm = flat_map (fun kv => match snd (meter_report (snd kv) ts) with Ok ms => ms | Exn _ => [] end) mk) /\
    Forall (named (B "stats.meter.")) lm /\
    Forall (fun d => named (B "stats.SLI.") d \/ named (B "stats.pdistinct.") d) lp /\
    (exists kinds types dc dt dg dm dpl,
      let nc := Z.of_nat (size (p_counter s)) in
      let nt := Z.of_nat (length (List.filter (fun kv => nonempty (snd kv)) (map_to_list (p_timer s)))) in
      let ng := Z.of_nat (length (p_gauge s)) in
      let nm := Z.of_nat (size (p_meter s)) in
      let np := Z.of_nat (size (p_plug s)) in
      kinds ≡ₚ [(B "counter", (nc, dc)); (B "timer", (nt, dt)); (B "gauge", (ng, dg));
                (B "meter", (nm, dm)); (B "plugin", (np, dpl))] /\
      types ≡ₚ map_to_list (p_ptime s) /\
      l = flat_map (counter_lines (i / 1000) ts) ck ++ flat_map (out_of (gt p ts)) tk ++
          map (gauge_line ts) (p_gauge s) ++ lm ++ lp ++
          DP (B "statsd.numStats") (VI (nc + nt + ng + nm + np)) ts ::
          flat_map (fun '(name, (n, x)) => summary_lines (B "flush") ts name n x) kinds ++
          flat_map (fun '(t, x) => summary_lines (B "receive") ts t (default 0 (p_btype s !! t)) x) types) /\
    p_counter s' = (fun _ => n0) <$> p_counter s /\
    p_timer s' = (fun _ => []) <$> p_timer s /\
    p_gauge s' = p_gauge s /\
    p_meter s' = (fun m => fst (meter_report m ts)) <$> p_meter s /\
    dom (p_plug s') = dom (p_plug s) /\ p_ptime s' = ∅ /\ p_btype s' = ∅.
Proof.
  intros Hi Hint H.
  apply flush_inv in H; [|intros t Ht; apply (inv_bt s Hi); exact Ht].
  destruct H as (ts & ck & tk & mk & pk & pouts & kinds & types & dc & dt & dg & dm & dpl & H1 & (H2 & _) & (H3 & H3f) &
    (H4 & H4f) & (H5 & H5n & H5f) & H6 & H7 & H8 & H9 & H10 & H11 & H12 & H13 & H14 & H15 & _).
  assert (Hz : i / 1000 <> 0).
  { pose proof (Z.div_mod i 1000 ltac:(lia)). pose proof (Z.mod_pos_bound i 1000 ltac:(lia)). lia. }
  assert (Hnc : count_if (group_of (gc (i / 1000) ts)) ck = Z.of_nat (size (p_counter s))).
  { unfold count_if. f_equal.
    assert (Hl : List.filter (group_of (gc (i / 1000) ts)) ck = ck).
    { assert (Hg : forall kv, group_of (gc (i / 1000) ts) kv = true).
      { intros kv. unfold group_of, gc. cbn [snd]. destruct (i / 1000 =? 0) eqn:Ez; [lia|reflexivity]. }
      clear -Hg. induction ck as [|kv ck IH]; [reflexivity|]. cbn [List.filter]. rewrite Hg, IH. reflexivity. }
    rewrite Hl, H2. symmetry. reflexivity. }
  assert (Hnt : count_if (group_of (gt p ts)) tk = Z.of_nat (length (List.filter (fun kv => nonempty (snd kv)) (map_to_list (p_timer s))))).
  { unfold count_if. f_equal.
    assert (Hl : List.filter (group_of (gt p ts)) tk = List.filter (fun kv => nonempty (snd kv)) tk).
    { clear -H3f. induction H3f as [|kv tk [o Ho] _ IH]; [reflexivity|]. cbn [List.filter]. rewrite IH.
      unfold group_of. rewrite Ho. unfold gt in Ho. cbn [snd] in Ho. destruct kv as [k [|x v]]; cbn [fst snd] in *.
      - injection Ho as <-. reflexivity.
      - destruct (timer_stats p (x :: v)); [|discriminate]. injection Ho as <-. reflexivity. }
    rewrite Hl. apply Permutation_length. clear -H3. induction H3; cbn [List.filter]; auto.
    - destruct (nonempty (snd x)); auto.
    - destruct (nonempty (snd x)), (nonempty (snd y)); try constructor; reflexivity.
    - etransitivity; eassumption. }
  assert (Hmo : Forall (fun kv => exists ms, snd (meter_report (snd kv) ts) = Ok ms) mk).
  { eapply Forall_impl; [exact H4f|]. intros kv [o Ho]. unfold gm in Ho. cbn [snd] in Ho.
    destruct (snd (meter_report (snd kv) ts)); [eauto|discriminate]. }
  assert (Hnm : count_if (group_of (gm ts)) mk = Z.of_nat (size (p_meter s))).
  { unfold count_if. f_equal.
    assert (Hl : List.filter (group_of (gm ts)) mk = mk).
    { clear -Hmo. induction Hmo as [|kv mk [ms Ho] _ IH]; [reflexivity|]. cbn [List.filter].
      assert (Hg : group_of (gm ts) kv = true) by (unfold group_of, gm; cbn [snd]; rewrite Ho; reflexivity).
      rewrite Hg, IH. reflexivity. }
    rewrite Hl, H4. reflexivity. }
  assert (Hnp : groups pouts = Z.of_nat (size (p_plug s))).
  { unfold groups. f_equal.
    assert (Hl : length pk = size (p_plug s)) by (rewrite H5; rewrite fmap_length; reflexivity).
    rewrite <- Hl. clear -H5f. induction H5f as [|k o pk pouts (v & v' & wa & wb & _ & Hf & _) _ IH]; [reflexivity|].
    cbn [List.filter length]. unfold fp in Hf. destruct (plug_flush E v ts wa) as [[q1 r] w1].
    destruct r; [|discriminate]. injection Hf as _ <- _. cbn [length]. f_equal. exact IH. }
  assert (Hlp : Forall (fun d => named (B "stats.SLI.") d \/ named (B "stats.pdistinct.") d) (emitted pouts)).
  { clear -H5f Hi. unfold emitted. induction H5f as [|k o pk pouts (v & v' & wa & wb & Hv & Hf & _) _ IH]; [constructor|].
    cbn [map concat]. apply Forall_app. split; [|exact IH]. destruct o as [ms|]; [|constructor].
    eapply fp_named; [|exact Hf]. apply (inv_p s Hi) in Hv. tauto. }
  exists ts, ck, tk, (flat_map (fun kv => match snd (meter_report (snd kv) ts) with Ok ms => ms | Exn _ => [] end) mk), (emitted pouts).
  refine (conj H1 (conj H2 (conj (conj H3 _) (conj (ex_intro _ mk (conj H4 (conj Hmo eq_refl))) (conj _ (conj Hlp (conj _ (conj H9 (conj H10 (conj H11 (conj H12 (conj H13 (conj H14 H15))))))))))))).
  - eapply Forall_impl; [exact H3f|]. intros kv [o Ho] Hne. unfold gt in Ho. cbn [snd] in Ho.
    destruct (snd kv) as [|x v]; [congruence|]. destruct (timer_stats p (x :: v)); [eauto|discriminate].
  - apply Forall_flat_map. apply Forall_forall. intros [k m] Hk. cbn [snd].
    assert (Hm : p_meter s !! k = Some m) by (apply elem_of_map_to_list; rewrite <- H4; exact Hk).
    apply (inv_m s Hi) in Hm. destruct Hm as [_ [Hm _]]. pose proof (out_gm_named ts k m Hm) as Ho. unfold out_of, gm in Ho. cbn [fst snd] in Ho.
    destruct (snd (meter_report m ts)); exact Ho.
  - rewrite Hnc, Hnt, Hnm, Hnp in H6, H8. exists kinds, types, dc, dt, dg, dm, dpl. cbv zeta.
    split; [exact H6|]. split; [exact H7|]. rewrite H8.
    assert (A1 : flat_map (out_of (gc (i / 1000) ts)) ck = flat_map (counter_lines (i / 1000) ts) ck).
    { clear -Hz. induction ck as [|kv ck IH]; [reflexivity|]. cbn [flat_map]. rewrite IH, out_gc by exact Hz. reflexivity. }
    assert (A2 : flat_map (gauge_item ts) (p_gauge s) = map (gauge_line ts) (p_gauge s)).
    { clear. induction (p_gauge s) as [|g l IH]; [reflexivity|]. cbn [flat_map map]. rewrite IH. reflexivity. }
    assert (A3 : flat_map (out_of (gm ts)) mk = flat_map (fun kv => match snd (meter_report (snd kv) ts) with Ok ms => ms | Exn _ => [] end) mk).
    { clear -Hmo. induction Hmo as [|kv mk [ms Ho] _ IH]; [reflexivity|]. cbn [flat_map]. rewrite IH.
      f_equal. unfold out_of, gm. cbn [snd]. rewrite Ho. reflexivity. }
    assert (A4 : flat_map (kind_items C ts) kinds = flat_map (fun '(name, (n, x)) => summary_lines (B "flush") ts name n x) kinds).
    { clear. induction kinds as [|[name [n x]] l IH]; [reflexivity|]. cbn [flat_map]. rewrite IH. reflexivity. }
    assert (A5 : flat_map (type_items C ts (p_btype s)) types = flat_map (fun '(t, x) => summary_lines (B "receive") ts t (default 0 (p_btype s !! t)) x) types).
    { clear. induction types as [|[t x] l IH]; [reflexivity|]. cbn [flat_map]. rewrite IH. reflexivity. }
    rewrite A1, A2, A3, A4, A5. reflexivity.
Qed.
End parts.
