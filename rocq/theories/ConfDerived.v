(** The flushes of the configurable processor over any history. *)
From Verif Require Import Base StrFacts Num NumFacts Env Stats Glob Metrics Gen GenFacts Processor Configurable
  LineSpec LineFacts FloatFacts ProcFacts ProcSpec ReceiveFacts ReceiveFacts2 Sched StepFacts CSched ConfFacts
  FlushRun FlushStages FlushComp FlushFail TimerFacts XQFacts FlushXQ SampleFacts VarianceFacts PercFacts BinFacts StatsDerived
  TimerHist ConfFlush ConfInv ConfXQ.

Section gen.
Context `{NN : Num} (E : env) (prefix internal : str) (plugins : list factory).
Notation C := (cp_cls E prefix internal plugins).
Notation creceive := (creceive E prefix internal plugins).
Notation cflush := (cflush E prefix internal plugins).
Notation creached := (creached E prefix internal plugins).

(** [v] is the last value received in a line of type [t] for [key] *)
Definition last_value (t key : str) (ls : list str) (v : num) : Prop :=
  exists vs, picks (value_line t key) ls vs /\ last vs = Some v.
Lemma picks_fun {A} (P : str -> A -> Prop) ls l l' : (forall m a b, P m a -> P m b -> a = b) -> picks P ls l -> picks P ls l' -> l = l'.
Proof.
  intros Hf H. revert l'. induction H as [|x a ls l Ha _ IH|x ls l Ha _ IH]; intros l' H'; inversion H'; subst; auto.
  - f_equal; eauto.
  - exfalso. match goal with H : forall a, ~ _ |- _ => eapply H; eauto end.
  - exfalso. match goal with H : forall a, ~ _ |- _ => eapply H; eauto end.
Qed.
Lemma last_value_fun t key ls v v' : last_value t key ls v -> last_value t key ls v' -> v = v'.
Proof.
  intros (l & H1 & H2) (l' & H3 & H4). rewrite (picks_fun _ _ _ _ (value_line_fun t key) H1 H3) in H2. congruence.
Qed.
Lemma picks_view t key ls : picks (value_line t key) ls (omap (fun m => view t m key) ls).
Proof.
  induction ls as [|m ls IH]; cbn; [constructor|]. destruct (view t m key) as [v|] eqn:Ev.
  - constructor; [apply view_iff; exact Ev|exact IH].
  - constructor; [apply view_none; exact Ev|exact IH].
Qed.
Lemma last_value_by t key ls z :
  match last (omap (fun m => view t m key) ls) with Some v => ntrunc v | None => Exn KeyError end = Ok z ->
  exists v, last_value t key ls v /\ ntrunc v = Ok z.
Proof.
  destruct (last _) as [v|] eqn:El; [|discriminate]. intros H. exists v. split; [|exact H]. eexists. split; [apply picks_view|exact El].
Qed.
Lemma counter_last es key v : last_value (B "c") key (lines es) v <->
  p_counter (creached es) !! key = Some (Counter key (dotted prefix) v).
Proof.
  destruct (ccounter_history E prefix internal plugins es key) as (l & Hp & Hl). rewrite Hl. split.
  - intros (l' & H1 & H2). rewrite (picks_fun _ _ _ _ (value_line_fun _ key) Hp H1), H2. reflexivity.
  - intros H. exists l. split; [exact Hp|]. destruct (last l); [|discriminate]. cbn in H. congruence.
Qed.
Lemma gauge_last es key v : last_value (B "g") key (lines es) v <->
  p_gauge (creached es) !! key = Some (Gauge key (dotted prefix) v).
Proof.
  destruct (cgauge_history E prefix internal plugins es key) as (l & Hp & Hl). rewrite Hl. split.
  - intros (l' & H1 & H2). rewrite (picks_fun _ _ _ _ (value_line_fun _ key) Hp H1), H2. reflexivity.
  - intros H. exists l. split; [exact Hp|]. destruct (last l); [|discriminate]. cbn in H. congruence.
Qed.
Lemma counter_shape es key c : p_counter (creached es) !! key = Some c -> c = Counter key (dotted prefix) (ct_count c).
Proof.
  destruct (ccounter_history E prefix internal plugins es key) as (l & _ & ->). destruct (last l); [|discriminate]. intros [= <-]. reflexivity.
Qed.
Lemma gauge_shape es key c : p_gauge (creached es) !! key = Some c -> c = Gauge key (dotted prefix) (ga_value c).
Proof.
  destruct (cgauge_history E prefix internal plugins es key) as (l & _ & ->). destruct (last l); [|discriminate]. intros [= <-]. reflexivity.
Qed.

(** the counters' part of a flush *)
Definition count_items (ts : Z) (kvs : list (str * Z)) : list dp :=
  map (fun '(k, z) => DP (under prefix k ++ B ".count") (VI z) ts) kvs.
Definition value_items (ts : Z) (kvs : list (str * num)) : list dp :=
  map (fun '(k, v) => DP (under prefix k ++ B ".value") (VF v) ts) kvs.
Lemma counter_part es ts kvs rest :
  kvs ++ rest ≡ₚ map_to_list (p_counter (creached es)) ->
  exists zs : list (str * Z), NoDup (zs.*1) /\
    (forall k z, (k, z) ∈ zs -> exists v, last_value (B "c") k (lines es) v /\ ntrunc v = Ok z) /\
    (rest = [] -> forall k v z, last_value (B "c") k (lines es) v -> ntrunc v = Ok z -> (k, z) ∈ zs) /\
    flat_map (out_of (gcc ts)) kvs = count_items ts zs.
Proof.
  intros Hp.
  assert (Hin : forall k c, (k, c) ∈ kvs -> p_counter (creached es) !! k = Some c).
  { intros k c H. apply elem_of_map_to_list. rewrite <- Hp. apply elem_of_app. auto. }
  assert (Hnd : NoDup kvs.*1).
  { assert (NoDup (kvs ++ rest).*1) by (rewrite Hp; apply NoDup_fst_map_to_list). rewrite fmap_app in H. apply NoDup_app in H. tauto. }
  exists (omap (fun kc => match ntrunc (ct_count (snd kc)) with Ok z => Some (fst kc, z) | Exn _ => None end) kvs).
  split; [|split; [|split]].
  - clear Hp Hin. induction kvs as [|[k c] kvs IH]; cbn; [constructor|].
    cbn [fmap list_fmap fst] in Hnd. apply NoDup_cons in Hnd as [Hk Hnd].
    assert (Hkk : k ∉ (omap (fun kc => match ntrunc (ct_count (snd kc)) with Ok z => Some (fst kc, z) | Exn _ => None end) kvs).*1).
    { intros Habs. apply Hk. apply elem_of_list_fmap in Habs as ([k' z] & -> & Habs). apply elem_of_list_omap in Habs as ([k2 c2] & H1 & H2).
      cbn in H2. destruct (ntrunc _); [|discriminate]. injection H2 as <- <-. apply elem_of_list_fmap. exists (k2, c2). auto. }
    destruct (ntrunc (ct_count c)); cbn [fmap list_fmap fst]; [|apply IH; exact Hnd]. constructor; [exact Hkk|apply IH; exact Hnd].
  - intros k z H. apply elem_of_list_omap in H as ([k2 c] & H1 & H2). cbn in H2.
    destruct (ntrunc (ct_count c)) as [z'|] eqn:Ez; [|discriminate]. injection H2 as -> ->.
    apply Hin in H1. exists (ct_count c). split; [|exact Ez]. apply counter_last. rewrite H1. f_equal. apply (counter_shape es k c H1).
  - intros -> k v z Hv Hz. apply counter_last in Hv. apply elem_of_list_omap. exists (k, Counter k (dotted prefix) v). cbn. rewrite Hz.
    split; [|reflexivity]. rewrite app_nil_r in Hp. rewrite Hp. apply elem_of_map_to_list. exact Hv.
  - clear Hp Hnd. revert Hin. induction kvs as [|[k c] kvs IH]; intros Hin; [reflexivity|]. cbn [flat_map omap list_omap].
    rewrite IH by (intros; apply Hin; right; assumption). pose proof (counter_shape es k c (Hin k c ltac:(left))) as Hc.
    unfold out_of at 1, gcc, counter_report. cbn [fst snd]. destruct (ntrunc (ct_count c)) as [z|]; [|reflexivity].
    cbn [count_items map app]. f_equal. rewrite Hc. cbn [ct_prefix ct_name]. rewrite dotted_under. reflexivity.
Qed.

(** C25 *)
Lemma counters_reported es i p s' l o ts :
  ntrunc (e_clock E (w_clk (p_w (creached es)))) = Ok ts ->
  (forall key v, last_value (B "c") key (lines es) v -> exists z, ntrunc v = Ok z) ->
  grun (cflush i p) (creached es) = (s', l, o) ->
  exists zs rest, NoDup (zs.*1) /\
    (forall key z, (key, z) ∈ zs <-> exists v, last_value (B "c") key (lines es) v /\ ntrunc v = Ok z) /\
    l = count_items ts zs ++ rest.
Proof.
  intros Hts Hz H. destruct (cflush_counters E prefix internal plugins i p _ s' l o ts Hts) with (2 := H) as (kvs & rest & Hk & ->).
  { intros k c Hc. apply (Hz k). apply counter_last. rewrite Hc. f_equal. apply (counter_shape es k c Hc). }
  destruct (counter_part es ts kvs [] ltac:(rewrite app_nil_r; exact Hk)) as (zs & H1 & H2 & H3 & ->).
  exists zs, rest. split; [exact H1|]. split; [|reflexivity]. intros key z. split; [apply H2|]. intros (v & Hv & Hvz). eapply H3; eauto.
Qed.
(** C26, first half *)
Lemma bad_counter es i p ts key v e :
  ntrunc (e_clock E (w_clk (p_w (creached es)))) = Ok ts ->
  last_value (B "c") key (lines es) v -> ntrunc v = Exn e ->
  exists w zs key' v' e', grun (cflush i p) (creached es) = (set_w w (creached es), count_items ts zs, Some e') /\
    last_value (B "c") key' (lines es) v' /\ ntrunc v' = Exn e' /\ NoDup (zs.*1) /\
    (forall k z, (k, z) ∈ zs -> exists x, last_value (B "c") k (lines es) x /\ ntrunc x = Ok z).
Proof.
  intros Hts Hv He. apply counter_last in Hv.
  destruct (cflush_counter_fail E prefix internal plugins i p _ ts key _ e Hts Hv He) as (w & kvs & rest & k' & c' & e' & Hp & Hg & Hk' & He').
  destruct (counter_part es ts kvs rest Hp) as (zs & H1 & H2 & _ & H4). rewrite H4 in Hg.
  exists w, zs, k', (ct_count c'), e'. split; [exact Hg|]. split; [|auto]. apply counter_last. rewrite Hk'. f_equal. apply (counter_shape es k' c' Hk').
Qed.

(** C27 and the shape of a completed flush *)
Lemma completed es i p s' l : grun (cflush i p) (creached es) = (s', l, None) ->
  exists ts zs tk vs rest,
    ntrunc (e_clock E (w_clk (p_w (creached es)))) = Ok ts /\
    l = count_items ts zs ++ flat_map (out_of (gct ts)) tk ++ value_items ts vs ++ rest /\
    (NoDup (zs.*1) /\ forall key z, (key, z) ∈ zs <-> exists v, last_value (B "c") key (lines es) v /\ ntrunc v = Ok z) /\
    (tk ≡ₚ map_to_list (p_timer (creached es)) /\ Forall (fun kv => exists o, snd (gct ts (fst kv) (snd kv)) = Ok o) tk) /\
    (NoDup (vs.*1) /\ forall key v, (key, v) ∈ vs <-> last_value (B "g") key (lines es) v) /\
    p_timer s' = (fun t => fst (timer_report t ts)) <$> p_timer (creached es).
Proof.
  intros H. apply cflush_inv in H; [|intros t; apply (ci_bt _ _ _ _ (cinv_reached E prefix internal plugins es))].
  destruct H as (ts & ck & tk & gk & mk & pk & pouts & kinds & types & dc & dt & dg & dm & dpl & Hts & (Hck & Hcf) & Htk & Hgk & _ & _ & _ & _ & -> & _ & Ht' & _).
  destruct (counter_part es ts ck [] ltac:(rewrite app_nil_r; exact Hck)) as (zs & Z1 & Z2 & Z3 & ->).
  exists ts, zs, tk, (map (fun kg => (fst kg, ga_value (snd kg))) gk). eexists.
  split; [exact Hts|]. split; [|split; [|split; [exact Htk|split; [|exact Ht']]]].
  - f_equal. f_equal. f_equal.
    assert (Hin : forall k c, (k, c) ∈ gk -> p_gauge (creached es) !! k = Some c) by (intros k c Hk; apply elem_of_map_to_list; rewrite <- Hgk; exact Hk).
    clear - Hin. induction gk as [|[k c] gk IH]; [reflexivity|]. cbn [flat_map map value_items].
    rewrite IH by (intros; apply Hin; right; assumption). pose proof (gauge_shape es k c (Hin k c ltac:(left))) as Hc.
    unfold out_of at 1, gcg, gauge_report. cbn [fst snd app]. f_equal. rewrite Hc. cbn [ga_prefix ga_name ga_value]. rewrite dotted_under. reflexivity.
  - split; [exact Z1|]. intros key z. split; [apply Z2|]. intros (v & Hv & Hvz). eapply Z3; eauto.
  - split.
    + rewrite <- (NoDup_fst_map_to_list (p_gauge (creached es))) in * || idtac.
      assert (He : (map (fun kg => (fst kg, ga_value (snd kg))) gk).*1 = gk.*1) by (clear; induction gk as [|x gk IH]; cbn; [reflexivity|f_equal; exact IH]).
      rewrite He, Hgk. apply NoDup_fst_map_to_list.
    + intros key v. rewrite gauge_last. split.
      * intros Hx. apply elem_of_list_fmap in Hx as ([k c] & [= -> ->] & Hx). rewrite Hgk in Hx. apply elem_of_map_to_list in Hx.
        rewrite Hx. f_equal. apply (gauge_shape es k c Hx).
      * intros Hx. apply elem_of_list_fmap. exists (key, Gauge key (dotted prefix) v). split; [reflexivity|]. rewrite Hgk. apply elem_of_map_to_list. exact Hx.
Qed.

Lemma gauges_reported es i p s' l : grun (cflush i p) (creached es) = (s', l, None) ->
  exists ts before vs after,
    ntrunc (e_clock E (w_clk (p_w (creached es)))) = Ok ts /\
    l = before ++ map (fun '(k, v) => DP (under prefix k ++ B ".value") (VF v) ts) vs ++ after /\
    NoDup (vs.*1) /\ (forall key v, (key, v) ∈ vs <-> last_value (B "g") key (lines es) v).
Proof.
  intros H. destruct (completed es i p s' l H) as (ts & zs & tk & vs & rest & Hts & -> & _ & _ & [Hn Hv] & _).
  exists ts, (count_items ts zs ++ flat_map (out_of (gct ts)) tk), vs, rest. split; [exact Hts|]. split; [|auto].
  rewrite <- app_assoc. reflexivity.
Qed.

(** receiving lines while nothing else happens *)
Definition creceive_all (ls : list str) (s : cst) : cst := fold_left (fun s m => creceive m s) ls s.
Lemma timer_lines_after ls : forall s key all since last t ds, p_timer s !! key = Some t -> timer_after E key prefix all since last t ->
  picks (value_line (B "ms") key) ls ds ->
  exists t', p_timer (creceive_all ls s) !! key = Some t' /\ timer_after E key prefix (all ++ ds) (since ++ ds) last t'.
Proof.
  induction ls as [|m ls IH]; intros s key all since last t ds Ht Ha Hp; inversion Hp as [|x a l1 l2 Hh Hr|x l1 l2 Hh Hr]; subst; cbn [creceive_all fold_left].
  - rewrite !app_nil_r. eauto.
  - pose proof (ctimer_one E prefix internal plugins m key s) as Ho. apply view_iff in Hh. rewrite Hh in Ho. destruct Ho as [w Ho].
    rewrite Ht in Ho. destruct (IH (creceive m s) key (all ++ [a]) (since ++ [a]) last _ l2 Ho (timer_after_update E key prefix all since last t a w Ha) Hr) as (t' & H1 & H2).
    exists t'. split; [exact H1|]. rewrite <- !app_assoc in H2. exact H2.
  - pose proof (ctimer_one E prefix internal plugins m key s) as Ho. apply view_none in Hh. rewrite Hh in Ho. rewrite Ht in Ho.
    exact (IH (creceive m s) key all since last t ds Ho Ha Hr).
Qed.
(** a timer is created with the second clock reading made for its first line *)
Lemma ctimer_new m key (s : cst) d : view (B "ms") m key = Some d -> p_timer s !! key = None ->
  exists w1, p_timer (creceive m s) !! key =
    Some (fst (timer_update E (fst (timer_new E key prefix (snd (now E (p_w s))))) d w1)).
Proof.
  unfold ConfFacts.creceive, view. rewrite process_proj by apply proj_timer.
  destruct (decode m) as [[[t raw] fields]|] eqn:Ed; [|discriminate].
  destruct (decode_cons _ _ _ _ Ed) as (f0 & l & ->).
  destruct (str_eqb t (B "ms")) eqn:Et; [|discriminate].
  apply str_eqb_eq in Et; subst t. change (known_type C (B "ms")) with true. cbv beta iota. cbn [andb].
  destruct (str_eqb (normalize_key raw) key) eqn:Ek; [|discriminate]. apply str_eqb_eq in Ek; subst key.
  intros Hd Em. unfold handler. change (str_eqb (B "ms") (B "c")) with false. change (str_eqb (B "ms") (B "ms")) with true.
  cbv beta iota. unfold process_timer_metric. rewrite Hd.
  cbn [c_compose_timer cp_cls]. unfold cp_compose_timer, bnd, mod_.
  set (s1 := set_w _ s). change (p_timer s1) with (p_timer s). rewrite Em. unfold now. change (p_w s1) with (World (S (w_clk (p_w s))) (w_rnd (p_w s)) (w_dict (p_w s)) (w_tbl (p_w s))).
  cbn [fst snd]. destruct (timer_new E (normalize_key raw) prefix _) as [t w'] eqn:En. cbn [fst snd].
  cbn [p_timer set_timer set_w p_w]. rewrite lookup_insert.
  destruct (timer_update E t d w') as [t' w2] eqn:Eu. exists w'. rewrite Eu. cbn [fst p_timer set_timer set_w]. rewrite lookup_insert. reflexivity.
Qed.
Lemma timer_lines_none ls : forall s key, p_timer s !! key = None -> picks (value_line (B "ms") key) ls [] ->
  p_timer (creceive_all ls s) !! key = None.
Proof.
  induction ls as [|m ls IH]; intros s key Hn Hp; [exact Hn|]. inversion Hp as [| |x l1 l2 Hh Hr]; subst. apply IH; [|exact Hr].
  pose proof (ctimer_one E prefix internal plugins m key s) as Ho. apply view_none in Hh. rewrite Hh in Ho. rewrite Ho. exact Hn.
Qed.
Lemma creceive_all_app a b s : creceive_all (a ++ b) s = creceive_all b (creceive_all a s).
Proof. apply fold_left_app. Qed.
Lemma inv_lines ls s : CInv E prefix plugins s -> CInv E prefix plugins (creceive_all ls s).
Proof. revert s. induction ls as [|m ls IH]; intros s H; [exact H|]. apply IH. apply ci_receive. exact H. Qed.
End gen.

From Coq Require Import QArith Qcanon.
Open Scope Z_scope.
(** neither an infinity nor NaN *)
Definition finite (x : xq) : Prop := exists q, x = Fin q.
(** truncation towards zero *)
Definition towards_zero (q : Qc) (z : Z) : Prop :=
  ((0 <= q)%Qc /\ (QcZ z <= q)%Qc /\ (q < QcZ (z + 1))%Qc) \/ ((q < 0)%Qc /\ (q <= QcZ z)%Qc /\ (QcZ (z - 1) < q)%Qc).
Lemma towards_zero_unique q z z' : towards_zero q z -> towards_zero q z' -> z = z'.
Proof.
  assert (Hlt : forall a b, (QcZ a < QcZ b)%Qc -> a < b) by (intros a b; apply QcZ_lt).
  intros [(H1 & H2 & H3)|(H1 & H2 & H3)] [(H4 & H5 & H6)|(H4 & H5 & H6)].
  - pose proof (Hlt z (z' + 1) ltac:(eapply Qcle_lt_trans; eassumption)). pose proof (Hlt z' (z + 1) ltac:(eapply Qcle_lt_trans; eassumption)). lia.
  - exfalso. exact (Qcle_not_lt _ _ H1 H4).
  - exfalso. exact (Qcle_not_lt _ _ H4 H1).
  - pose proof (Hlt (z' - 1) z ltac:(eapply Qclt_le_trans; eassumption)). pose proof (Hlt (z - 1) z' ltac:(eapply Qclt_le_trans; eassumption)). lia.
Qed.
Lemma internal_prefix_cases prefix given :
  internal_prefix prefix given =
    if bool_decide (given = []) then (if bool_decide (prefix = []) then B "statsd." else prefix ++ B ".statsd.") else given.
Proof.
  unfold internal_prefix. destruct given as [|c g], prefix as [|c' p]; repeat case_bool_decide; try reflexivity; try discriminate; try contradiction.
Qed.
Section xq.
Context (sq : Qc -> Qc) (E : env (NN := XQ sq)) (prefix internal : str) (plugins : list (factory (NN := XQ sq))).
Notation NN := (XQ sq).
Notation C := (cp_cls (NN := NN) E prefix internal plugins).
Notation cflush := (cflush (NN := NN) E prefix internal plugins).
Notation creached := (creached (NN := NN) E prefix internal plugins).

Lemma Qctrunc_opp q : Qctrunc (- q) = - Qctrunc q.
Proof.
  unfold Qctrunc. cbn [this Qcopp Q2Qc]. destruct q as [[n d] Hc]. cbn [this Qnum Qden Qopp].
  rewrite Qred_opp. rewrite Hc. cbn [Qopp Qnum Qden]. apply Z.quot_opp_l. discriminate.
Qed.
Lemma trunc_spec q : towards_zero q (Qctrunc q).
Proof.
  unfold towards_zero. destruct (Qclt_le_dec q 0) as [Hn|Hp].
  - right. split; [exact Hn|]. set (r := (- q)%Qc). assert (Hr : (0 <= r)%Qc) by (unfold r; clear - Hn; qc_lra).
    assert (Hq : q = (- r)%Qc) by (unfold r; ring). rewrite Hq. rewrite Qctrunc_opp, (Qctrunc_floor r Hr).
    destruct (proj1 (Qcfloor_spec r (Qcfloor r)) eq_refl) as [H1 H2].
    replace (- Qcfloor r - 1) with (- (Qcfloor r + 1)) by lia. rewrite !QcZ_opp. 
    set (a := QcZ (Qcfloor r)) in *. set (b := QcZ (Qcfloor r + 1)) in *. clearbody a b r. clear - H1 H2. split; qc_lra.
  - left. split; [exact Hp|]. rewrite (Qctrunc_floor q Hp). apply (proj1 (Qcfloor_spec q (Qcfloor q)) eq_refl).
Qed.

(** C26: exactly when an undisturbed flush raises *)
Lemma raises_iff es i p :
  (exists s' l e, grun (cflush i p) (creached es) = (s', l, Some e)) <->
  (~ finite (e_clock E (w_clk (p_w (creached es))))) \/
  exists key v, last_value (NN := NN) (B "c") key (lines es) v /\ ~ finite v.
Proof.
  assert (Hfin : forall x : xq, (exists z, ntrunc (Num := NN) x = Ok z) \/ (~ finite x /\ exists e, ntrunc (Num := NN) x = Exn e)).
  { intros [q| |]; cbn; [left; eauto|right|right]; (split; [intros [? ?]; discriminate|eauto]). }
  assert (Hfin2 : forall (x : xq) z, ntrunc (Num := NN) x = Ok z -> finite x).
  { intros [q| |] z; cbn; try discriminate. intros _. exists q. reflexivity. }
  split.
  - intros (s' & l & e & H). pose proof (cinv_reached (NN := NN) E prefix internal plugins es) as HI. apply cflush_fail in H; [|apply (ci_bt _ _ _ _ HI)].
    destruct H as [H|k c Hc H|ts k t _ Ht H|ts k m _ _ H|ts k q _ Hq [w Hf]].
    + left. intros Hf. destruct Hf as [q Hf]. rewrite Hf in H. discriminate.
    + right. exists k, (ct_count c). split.
      * apply (counter_last E prefix internal plugins). rewrite Hc. f_equal. apply (counter_shape E prefix internal plugins es k c Hc).
      * intros [q Hf]. rewrite Hf in H. discriminate.
    + exfalso. apply (ci_t _ _ _ _ HI) in Ht as (_ & all & since & la & Ht). destruct (timer_total sq E _ _ _ _ _ t ts Ht) as [ms Hms]. congruence.
    + exfalso. destruct (meter_total sq m ts) as [ms Hms]. congruence.
    + exfalso. apply (ci_p _ _ _ _ HI) in Hq as (_ & Hq). destruct q as [x|d]; cbn [plug_flush cplug] in *.
      * destruct (sli_flush E x ts w) as [[x' l'] w']. discriminate.
      * destruct Hq as (_ & _ & Hh). unfold dmetric_flush, now in Hf.
        unfold distinct_count in Hf. destruct (ds_hashes (dm_counter d)); [contradiction|discriminate].
  - intros H. destruct (Hfin (e_clock E (w_clk (p_w (creached es))))) as [[ts Hts]|[_ [e He]]].
    + destruct H as [H|(key & v & Hv & Hn)]; [exfalso; apply H; eapply Hfin2; exact Hts|].
      destruct (Hfin v) as [[z Hz]|[_ [e He]]]; [exfalso; apply Hn; eapply Hfin2; exact Hz|].
      destruct (bad_counter (NN := NN) E prefix internal plugins es i p ts key v e Hts Hv He) as (w & zs & k' & v' & e' & Hg & _). eauto.
    + assert (Hg : exists s', grun (cflush i p) (creached es) = (s', [], Some e)).
      { rewrite (cflush_direct (NN := NN) E prefix internal plugins i p (creached es)).
        unfold wflush, wbind at 1, wnow at 1, now. change (@Num.num NN) with xq in *. rewrite He. eexists. reflexivity. }
      destruct Hg as [s' Hg]. eauto.
Qed.

Lemma flush_inv s s' l o i p : CInv (NN := NN) E prefix plugins s -> grun (cflush i p) s = (s', l, o) -> CInv (NN := NN) E prefix plugins s'.
Proof.
  assert (Hsafe : forall g (s s' : cst (NN := NN)) l o, CInv E prefix plugins s -> safeG (NN := NN) (CInv E prefix plugins) (Qconf prefix internal plugins) g -> grun g s = (s', l, o) -> CInv E prefix plugins s').
  { clear. induction g as [|e|f IH|ms k IH] using gen_ind'; intros s s' l o Hi Hg H; cbn [grun] in H.
    - injection H as <- _ _. exact Hi.
    - injection H as <- _ _. exact Hi.
    - cbn [safeG] in Hg. destruct (Hg s Hi) as [A1 A2]. specialize (IH s). destruct (f s) as [sx gx]. cbn [fst snd] in *. eapply IH; eauto.
    - cbn [safeG] in Hg. destruct Hg as [_ Hg]. destruct (grun k s) as [[sx lx] ox] eqn:Ex. injection H as <- _ _. eapply IH; eauto. }
  intros Hi H. eapply Hsafe; [exact Hi|apply cflush_safe|exact H].
Qed.
(** C28: a flush, then lines, then another flush *)
Lemma timer_between es i p s1 l1 ls i' p' s3 l3 key ds :
  grun (cflush i p) (creached es) = (s1, l1, None) ->
  grun (cflush i' p') (creceive_all (NN := NN) E prefix internal plugins ls s1) = (s3, l3, None) ->
  (exists v, last_value (NN := NN) (B "ms") key (lines es) v) ->
  picks (value_line (NN := NN) (B "ms") key) ls (fins ds) ->
  exists all ts1 ts3 p999 p99 count mx mean mn rate sd pre post,
    picks (value_line (NN := NN) (B "ms") key) (lines es) all /\
    ntrunc (Num := NN) (e_clock E (w_clk (p_w (creached es)))) = Ok ts1 /\
    ntrunc (Num := NN) (e_clock E (w_clk (p_w (creceive_all (NN := NN) E prefix internal plugins ls s1)))) = Ok ts3 /\
    timer_summary sq (List.filter (fun q => Qc_leb 0 q) ds) (Z.of_nat (length (all ++ fins ds))) (QcZ ts3 - QcZ ts1)%Qc
      p999 p99 count mx mean mn rate sd /\
    l3 = pre ++ timer_group sq (under prefix key) ts3 p999 p99 count mx mean mn rate sd ++ post.
Proof.
  intros H1 H3 [v0 Hv0] Hp. pose proof (cinv_reached (NN := NN) E prefix internal plugins es) as HI.
  destruct (completed (NN := NN) E prefix internal plugins es i p s1 l1 H1) as (ts1 & zs & tk & vs & rest & Hts1 & _ & _ & (Htk & Hok) & _ & Ht1).
  destruct (ctimer_history (NN := NN) E prefix internal plugins es key) as (all & Hall & Ht).
  destruct (p_timer (creached es) !! key) as [t0|] eqn:Et0.
  2:{ exfalso. destruct Hv0 as (vs0 & Hvs0 & Hl0). rewrite (picks_fun _ _ _ _ (value_line_fun (NN := NN) _ key) Hvs0 Hall), Ht in Hl0. discriminate. }
  destruct Ht as (_ & before & since & last0 & _ & Ha).
  assert (Hclear : fst (timer_report (NN := NN) t0 ts1) = timer_clear t0 (nofZ (Num := NN) ts1)).
  { rewrite Forall_forall in Hok. destruct (Hok (key, t0)) as [o Ho]; [rewrite Htk; apply elem_of_map_to_list; exact Et0|].
    cbn [fst snd gct] in Ho. destruct (snd (timer_report t0 ts1)) as [ms|] eqn:Em; [|discriminate]. eapply timer_report_ok. exact Em. }
  assert (Hs1 : p_timer s1 !! key = Some (timer_clear t0 (nofZ (Num := NN) ts1))).
  { rewrite Ht1, lookup_fmap, Et0. cbn. f_equal. exact Hclear. }
  apply (timer_after_clear E key prefix all since last0 t0 (nofZ (Num := NN) ts1)) in Ha.
  destruct (timer_lines_after (NN := NN) E prefix internal plugins ls s1 key _ _ _ _ (fins ds) Hs1 Ha Hp) as (t' & Ht' & Ha').
  assert (HI1 : CInv (NN := NN) E prefix plugins s1).
  { eapply flush_inv; [exact HI|exact H1]. }
  pose proof (inv_lines (NN := NN) E prefix internal plugins ls s1 HI1) as HI2.
  apply cflush_inv in H3; [|apply (ci_bt _ _ _ _ HI2)].
  destruct H3 as (ts3 & ck & tk3 & gk & mk & pk & pouts & kinds & types & dc & dt & dg & dm & dpl & Hts3 & _ & (Htk3 & _) & _ & _ & _ & _ & _ & Hl3 & _).
  destruct (timer_exact sq E key prefix _ _ (QcZ ts1) t' ts3 ds Ha' eq_refl) as (p999 & p99 & count & mx & mean & mn & rate & sd & Hsum & Hrep).
  assert (Hin : (key, t') ∈ tk3) by (rewrite Htk3; apply elem_of_map_to_list; exact Ht').
  apply elem_of_list_split in Hin as (k1 & k2 & Hk). rewrite Hk in Hl3. rewrite flat_map_app in Hl3. cbn [flat_map] in Hl3.
  unfold out_of at 3, gct at 2 in Hl3. cbn [fst snd] in Hl3. rewrite Hrep in Hl3.
  rewrite <- !app_assoc in Hl3.
  exists all, ts1, ts3, p999, p99, count, mx, mean, mn, rate, sd, (flat_map (out_of (gcc ts3)) ck ++ flat_map (out_of (gct ts3)) k1). eexists.
  split; [exact Hall|]. split; [exact Hts1|]. split; [exact Hts3|]. split; [exact Hsum|].
  rewrite Hl3. rewrite <- (app_assoc (flat_map (out_of (gcc ts3)) ck)). reflexivity.
Qed.

(** a duration first received after the previous flush *)
Lemma timer_first es i p s1 l1 ls1 m ls2 i' p' s3 l3 key d t0 ds :
  grun (cflush i p) (creached es) = (s1, l1, None) ->
  let before := creceive_all (NN := NN) E prefix internal plugins ls1 s1 in
  let after := creceive_all (NN := NN) E prefix internal plugins (ls1 ++ m :: ls2) s1 in
  grun (cflush i' p') after = (s3, l3, None) ->
  (forall v, ~ last_value (NN := NN) (B "ms") key (lines es) v) ->
  picks (value_line (NN := NN) (B "ms") key) ls1 [] -> value_line (NN := NN) (B "ms") key m (Fin d) ->
  picks (value_line (NN := NN) (B "ms") key) ls2 (fins ds) ->
  e_clock E (S (w_clk (p_w before))) = Fin t0 ->
  exists ts3 p999 p99 count mx mean mn rate sd pre post,
    ntrunc (Num := NN) (e_clock E (w_clk (p_w after))) = Ok ts3 /\
    timer_summary sq (List.filter (fun q => Qc_leb 0 q) (d :: ds)) (Z.of_nat (S (length ds))) (QcZ ts3 - t0)%Qc
      p999 p99 count mx mean mn rate sd /\
    l3 = pre ++ timer_group sq (under prefix key) ts3 p999 p99 count mx mean mn rate sd ++ post.
Proof.
  intros H1 before after H3 Hv0 Hp1 Hm Hp2 Hc. pose proof (cinv_reached (NN := NN) E prefix internal plugins es) as HI.
  destruct (completed (NN := NN) E prefix internal plugins es i p s1 l1 H1) as (ts1 & zs & tk & vs & rest & Hts1 & _ & _ & _ & _ & Ht1).
  destruct (ctimer_history (NN := NN) E prefix internal plugins es key) as (all & Hall & Ht).
  assert (Hs1 : p_timer s1 !! key = None).
  { rewrite Ht1, lookup_fmap. destruct (p_timer (creached es) !! key) as [t1|]; [|reflexivity].
    exfalso. destruct Ht as [Hne _]. destruct (last all) as [v|] eqn:El; [|apply last_None in El; contradiction].
    apply (Hv0 v). exists all. auto. }
  apply (timer_lines_none (NN := NN) E prefix internal plugins ls1 s1 key Hs1) in Hp1. fold before in Hp1.
  apply view_iff in Hm. destruct (ctimer_new (NN := NN) E prefix internal plugins m key before (Fin d) Hm Hp1) as [w1 Hnew].
  pose proof (timer_after_new E key prefix (snd (now E (p_w before)))) as Ha. cbn [now fst snd w_clk] in Ha. rewrite Hc in Ha.
  apply (timer_after_update E key prefix [] [] (Fin t0) _ (Fin d) w1) in Ha. cbn [app] in Ha.
  destruct (timer_lines_after (NN := NN) E prefix internal plugins ls2 _ key _ _ _ _ (fins ds) Hnew Ha Hp2) as (t' & Ht' & Ha').
  assert (Haf : after = creceive_all (NN := NN) E prefix internal plugins ls2 (creceive E prefix internal plugins m before)).
  { unfold after. rewrite creceive_all_app. reflexivity. }
  rewrite <- Haf in Ht'.
  assert (HI1 : CInv (NN := NN) E prefix plugins s1) by (eapply flush_inv; [exact HI|exact H1]).
  pose proof (inv_lines (NN := NN) E prefix internal plugins (ls1 ++ m :: ls2) s1 HI1) as HI2. fold after in HI2.
  apply cflush_inv in H3; [|apply (ci_bt _ _ _ _ HI2)].
  destruct H3 as (ts3 & ck & tk3 & gk & mk & pk & pouts & kinds & types & dc & dt & dg & dm & dpl & Hts3 & _ & (Htk3 & _) & _ & _ & _ & _ & _ & Hl3 & _).
  destruct (timer_exact sq E key prefix _ _ t0 t' ts3 (d :: ds) Ha' eq_refl) as (p999 & p99 & count & mx & mean & mn & rate & sd & Hsum & Hrep).
  assert (Hin : (key, t') ∈ tk3) by (rewrite Htk3; apply elem_of_map_to_list; exact Ht').
  apply elem_of_list_split in Hin as (k1 & k2 & Hk). rewrite Hk in Hl3. rewrite flat_map_app in Hl3. cbn [flat_map] in Hl3.
  unfold out_of at 3, gct at 2 in Hl3. cbn [fst snd] in Hl3. rewrite Hrep in Hl3. rewrite <- !app_assoc in Hl3.
  exists ts3, p999, p99, count, mx, mean, mn, rate, sd, (flat_map (out_of (gcc ts3)) ck ++ flat_map (out_of (gct ts3)) k1). eexists.
  split; [exact Hts3|]. split; [|rewrite Hl3; rewrite <- (app_assoc (flat_map (out_of (gcc ts3)) ck)); reflexivity].
  cbn [app length] in Hsum. unfold fins in Hsum. rewrite map_length in Hsum. exact Hsum.
Qed.
End xq.
