(** An undisturbed flush of the configurable processor. *)
From Verif Require Import Base StrFacts Num Env Stats Glob Metrics Gen GenFacts Processor Configurable
  LineSpec LineFacts FloatFacts ProcFacts ProcSpec ReceiveFacts ReceiveFacts2 Sched StepFacts CSched ConfFacts
  FlushRun FlushStages FlushComp FlushFail.

(** ** stages, for any class *)
Section any.
Context `{NN : Num} {TM CM GM V : Type} (E : env) (L : lens TM CM GM V) (g : str -> V -> V * res (option (list dp))).
Notation st := (pst TM CM GM).
Lemma gstage_pure (s s' : st) l n x :
  wtimed E (wlens E L (pure g)) s = (s', l, Ok (n, x)) ->
  exists kvs w', kvs ≡ₚ map_to_list (lget L s) /\
    s' = set_w w' (lput L (map_imap (fun k v => Some (fst (g k v))) (lget L s)) s) /\
    l = flat_map (out_of g) kvs /\ n = count_if (group_of g) kvs /\
    Forall (fun kv => exists o, snd (g (fst kv) (snd kv)) = Ok o) kvs.
Proof.
  intros H. apply wtimed_inv in H. destruct H as (w & s1 & r1 & H1 & H2).
  destruct r1 as [n1|e]; [|destruct H2; discriminate]. destruct H2 as [[w' ->] [x' [= <- <-]]].
  apply pure_ok in H1. destruct H1 as (w1 & kvs & Hk & -> & -> & Hn & Hf). rewrite lgw in Hk |- *.
  exists kvs, w'. split; [exact Hk|]. split; [|auto]. rewrite lpw. reflexivity.
Qed.
Lemma gstage_fail (s s' : st) l e :
  wtimed E (wlens E L (pure g)) s = (s', l, Exn e) ->
  exists k v, lget L s !! k = Some v /\ snd (g k v) = Exn e.
Proof.
  intros H. apply wtimed_inv in H. destruct H as (w & s1 & r1 & H1 & H2).
  destruct r1 as [n1|e1]; [destruct H2 as [_ [x H2]]; discriminate|]. destruct H2 as [-> [= <-]].
  apply pure_fail in H1. rewrite lgw in H1. exact H1.
Qed.
(** a stage that changes no entry: the items of the entries before the failing one *)
Context (Hsame : forall k v, fst (g k v) = v).
Lemma frun_same ks : forall m n w m' w' l r, frun (pure g) ks m n w = (m', w', l, r) ->
  m' = m /\ w' = w /\ exists ks1 ks2, ks = ks1 ++ ks2 /\
    l = flat_map (fun k => match m !! k with Some v => out_of g (k, v) | None => [] end) ks1.
Proof using Hsame.
  induction ks as [|k ks IH]; intros m n w m' w' l r H; cbn [frun] in H.
  - injection H as <- <- <- <-. split; [reflexivity|]. split; [reflexivity|]. exists [], []. auto.
  - destruct (m !! k) as [v|] eqn:Ev.
    + unfold pure in H. rewrite Hsame, (insert_id m k v Ev) in H. destruct (snd (g k v)) as [[ms|]|e] eqn:Eg.
      * fold (pure g) in H. destruct (frun (pure g) ks m (n + 1) w) as [[[m2 w2] l2] r2] eqn:Er.
        injection H as <- <- <- <-. destruct (IH _ _ _ _ _ _ _ Er) as (-> & -> & ks1 & ks2 & -> & ->).
        split; [reflexivity|]. split; [reflexivity|]. exists (k :: ks1), ks2. split; [reflexivity|].
        cbn [flat_map]. rewrite Ev. unfold out_of at 2. cbn [fst snd]. rewrite Eg. reflexivity.
      * destruct (IH _ _ _ _ _ _ _ H) as (-> & -> & ks1 & ks2 & -> & ->).
        split; [reflexivity|]. split; [reflexivity|]. exists (k :: ks1), ks2. split; [reflexivity|].
        cbn [flat_map]. rewrite Ev. unfold out_of at 2. cbn [fst snd]. rewrite Eg. reflexivity.
      * injection H as <- <- <- <-. split; [reflexivity|]. split; [reflexivity|]. exists [], (k :: ks). auto.
    + destruct (IH _ _ _ _ _ _ _ H) as (-> & -> & ks1 & ks2 & -> & ->).
      split; [reflexivity|]. split; [reflexivity|]. exists (k :: ks1), ks2. split; [reflexivity|].
      cbn [flat_map]. rewrite Ev. reflexivity.
Qed.
Lemma stage_same_any (s s' : st) l r :
  wtimed E (wlens E L (pure g)) s = (s', l, r) ->
  exists w' kvs rest, kvs ++ rest ≡ₚ map_to_list (lget L s) /\ s' = set_w w' s /\ l = flat_map (out_of g) kvs.
Proof using Hsame.
  intros H. apply wtimed_inv in H. destruct H as (w & s1 & r1 & H1 & H2).
  assert (Hs1 : exists w1 kvs rest, s1 = set_w w1 s /\ kvs ++ rest ≡ₚ map_to_list (lget L s) /\ l = flat_map (out_of g) kvs).
  { unfold wlens in H1. rewrite lgw in H1. pose proof (keys_perm E (lget L s) (p_w (set_w w s))) as Hp.
    destruct (dict_keys E (lget L s) (p_w (set_w w s))) as [ks w1]. cbn [fst] in Hp.
    destruct (frun (pure g) ks (lget L s) 0 w1) as [[[m2 w2] l2] r2] eqn:Er. injection H1 as <- <- <-.
    destruct (frun_same _ _ _ _ _ _ _ _ Er) as (-> & -> & ks1 & ks2 & -> & ->).
    eexists _. exists (omap (fun k => (fun v => (k, v)) <$> (lget L s !! k)) ks1), (omap (fun k => (fun v => (k, v)) <$> (lget L s !! k)) ks2).
    split; [|split].
    - rewrite lpw, lpg. reflexivity.
    - rewrite <- omap_app. apply omap_keys. exact Hp.
    - clear. induction ks1 as [|k ks1 IH]; [reflexivity|]. cbn [flat_map omap list_omap].
      destruct (lget L s !! k) as [v|]; cbn [fmap option_fmap option_map flat_map]; rewrite IH; reflexivity. }
  destruct Hs1 as (w1 & kvs & rest & -> & Hk & ->). destruct r1 as [n1|e].
  - destruct H2 as [[w' ->] _]. exists w', kvs, rest. auto.
  - destruct H2 as [-> _]. exists w1, kvs, rest. auto.
Qed.
End any.

Section conf.
Context `{NN : Num} (E : env) (prefix internal : str) (plugins : list factory).
Notation C := (cp_cls E prefix internal plugins).
Notation cflush := (cflush E prefix internal plugins).

Definition gcc (ts : Z) (key : str) (c : counter) : counter * res (option (list dp)) :=
  (c, match counter_report c ts with Exn e => Exn e | Ok ms => Ok (Some ms) end).
Definition gct (ts : Z) (key : str) (t : timer) : timer * res (option (list dp)) :=
  (fst (timer_report t ts), match snd (timer_report t ts) with Exn e => Exn e | Ok ms => Ok (Some ms) end).
Definition gcg (ts : Z) (key : str) (g : gauge) : gauge * res (option (list dp)) :=
  (g, Ok (Some (gauge_report g ts))).

Definition cmc (i ts : Z) : W cst Z := wlens E (Lc _ _ _) (pure (gcc ts)).
Definition cmt (p ts : Z) : W cst Z := wlens E (Lt _ _ _) (pure (gct ts)).
Definition cmg (ts : Z) : W cst Z := wlens E (Lg timer counter gauge) (pure (gcg ts)).
Definition cmm (ts : Z) : W cst Z := wlens E (Lm _ _ _) (pure (gm ts)).
Definition cmp (ts : Z) : W cst Z := wlens E (Lp _ _ _) (fp E ts).

Lemma cmc_runs i ts : loop_runs (cp_flush_counter E i ts) (cmc i ts).
Proof.
  apply (lens_runs E (Lc _ _ _)). intros key v s Hs. cbn [Lc lget lput] in *. unfold pure, gcc. cbn [fst snd].
  rewrite insert_id by exact Hs. destruct (counter_report v ts); destruct s; reflexivity.
Qed.
Lemma cmt_runs p ts : loop_runs (cp_flush_timer E p ts) (cmt p ts).
Proof.
  apply (lens_runs E (Lt _ _ _)). intros key v s Hs. cbn [Lt lget lput] in *. unfold pure, gct. cbn [fst snd].
  destruct (timer_report v ts) as [t' [ms|e]]; destruct s; reflexivity.
Qed.
Lemma cmg_runs ts : loop_runs (cp_flush_gauge E ts) (cmg ts).
Proof.
  apply (lens_runs E (Lg _ _ _)). intros key v s Hs. cbn [Lg lget lput] in *. unfold pure, gcg. cbn [fst snd].
  rewrite insert_id by exact Hs. destruct s; reflexivity.
Qed.
Lemma cmm_runs ts : loop_runs (flush_meter E ts) (cmm ts).
Proof.
  apply (lens_runs E (Lm _ _ _)). intros key v s Hs. cbn [Lm lget lput] in *. unfold pure, gm. cbn [fst snd].
  destruct (meter_report v ts) as [m' [ms|e]]; destruct s; reflexivity.
Qed.
Lemma cmp_runs ts : loop_runs (flush_plugins E ts) (cmp ts).
Proof.
  apply (lens_runs E (Lp _ _ _)). intros key v s Hs. cbn [Lp lget lput] in *. unfold fp.
  destruct (plug_flush E v ts (p_w s)) as [[p' [ms|e]] w']; destruct s; reflexivity.
Qed.
Lemma cflush_direct i p : runs (cflush i p) (wflush E C cmc cmt cmg cmm cmp i p).
Proof. apply flush_runs; [apply cmc_runs|apply cmt_runs|apply cmg_runs|apply cmm_runs|apply cmp_runs]. Qed.

Lemma imap_same {V} (m : gmap str V) (f : str -> V -> V) : (forall k v, f k v = v) -> map_imap (fun k v => Some (f k v)) m = m.
Proof. intros H. apply map_eq. intros k. rewrite map_lookup_imap. destruct (m !! k); cbn; [rewrite H|]; reflexivity. Qed.

(** *** a flush that completes *)
Lemma cflush_inv i p (s s' : cst) l :
  (forall t, is_Some (p_ptime s !! t) -> is_Some (p_btype s !! t)) ->
  grun (cflush i p) s = (s', l, None) ->
  exists ts ck tk gk mk pk pouts kinds types dc dt dg dm dpl,
    ntrunc (e_clock E (w_clk (p_w s))) = Ok ts /\
    (ck ≡ₚ map_to_list (p_counter s) /\
     Forall (fun kv => exists o, snd (gcc ts (fst kv) (snd kv)) = Ok o) ck) /\
    (tk ≡ₚ map_to_list (p_timer s) /\
     Forall (fun kv => exists o, snd (gct ts (fst kv) (snd kv)) = Ok o) tk) /\
    gk ≡ₚ map_to_list (p_gauge s) /\
    (mk ≡ₚ map_to_list (p_meter s) /\
     Forall (fun kv => exists o, snd (gm ts (fst kv) (snd kv)) = Ok o) mk) /\
    (pk ≡ₚ (map_to_list (p_plug s)).*1 /\ NoDup pk /\
     Forall2 (fun k o => exists v v' wa wb, p_plug s !! k = Some v /\ fp E ts k v wa = (v', Ok o, wb) /\
                                            p_plug s' !! k = Some v') pk pouts) /\
    kinds ≡ₚ kind_table (count_if (group_of (gcc ts)) ck) (count_if (group_of (gct ts)) tk)
               (count_if (group_of (gcg ts)) gk) (count_if (group_of (gm ts)) mk) (groups pouts)
               dc dt dg dm dpl /\
    types ≡ₚ map_to_list (p_ptime s) /\
    l = flat_map (out_of (gcc ts)) ck ++
        flat_map (out_of (gct ts)) tk ++
        flat_map (out_of (gcg ts)) gk ++
        flat_map (out_of (gm ts)) mk ++
        emitted pouts ++
        DP (internal_prefix prefix internal ++ B "numStats")
           (VI (count_if (group_of (gcc ts)) ck + count_if (group_of (gct ts)) tk +
                count_if (group_of (gcg ts)) gk + count_if (group_of (gm ts)) mk + groups pouts)) ts ::
        flat_map (kind_items C ts) kinds ++ flat_map (type_items C ts (p_btype s)) types /\
    p_counter s' = p_counter s /\
    p_timer s' = (fun t => fst (timer_report t ts)) <$> p_timer s /\
    p_gauge s' = p_gauge s /\
    p_meter s' = (fun m => fst (meter_report m ts)) <$> p_meter s /\
    dom (p_plug s') = dom (p_plug s) /\
    p_ptime s' = ∅ /\ p_btype s' = ∅ /\ p_bad s' = p_bad s /\ p_info s' = p_info s.
Proof.
  intros Hb H. rewrite cflush_direct in H.
  destruct (wflush E C cmc cmt cmg cmm cmp i p s) as [[s9 l9] r9] eqn:Ew. unfold wend in H.
  destruct r9 as [[]|e]; [|discriminate]. injection H as -> ->.
  unfold wflush in Ew. apply wbind_ok in Ew. destruct Ew as (s1 & l1 & t & l2 & H1 & H2 & ->).
  unfold wnow, now in H1. injection H1 as <- <- <-.
  destruct (ntrunc (e_clock E (w_clk (p_w s)))) as [ts|e] eqn:Ets; [|discriminate].
  set (w0 := World _ _ _ _) in H2.
  apply wbind_ok in H2. destruct H2 as (sc & lc & [nc dc] & l3 & Hc & H2 & ->).
  apply wbind_ok in H2. destruct H2 as (st & lt & [nt dt] & l4 & Ht & H2 & ->).
  apply wbind_ok in H2. destruct H2 as (sg & lg & [ng dg] & l5 & Hg & H2 & ->).
  apply wbind_ok in H2. destruct H2 as (sm & lm & [nm dm] & l6 & Hm & H2 & ->).
  apply wbind_ok in H2. destruct H2 as (sp & lp & [np dpl] & l7 & Hp & H2 & ->).
  apply gstage_pure in Hc. destruct Hc as (ck & w1 & Hck & -> & -> & -> & Hcf).
  apply gstage_pure in Ht. destruct Ht as (tk & w2 & Htk & -> & -> & -> & Htf).
  apply gstage_pure in Hg. destruct Hg as (gk & w3 & Hgk & -> & -> & -> & _).
  apply gstage_pure in Hm. destruct Hm as (mk & w5 & Hmk & -> & -> & -> & Hmf).
  apply wtimed_inv in Hp. destruct Hp as (w6 & s6 & r6 & Hp & Hp').
  destruct r6 as [n6|e]; [|destruct Hp'; discriminate]. destruct Hp' as [[w7 ->] [x7 [= -> ->]]].
  apply wlens_ok in Hp. destruct Hp as (pk & pouts & m' & w8 & Hpk & Hnd & -> & Hdom & Hf2 & -> & ->).
  cbn [Lc Lt Lg Lm Lp lget lput p_counter p_timer p_meter p_plug p_gauge set_w set_counter set_timer set_gauge set_meter set_plug
       p_w p_ptime p_btype p_bad p_info p_lfd p_lpd] in *.
  unfold wsummary in H2.
  match type of H2 with context [grun (flush_summary E C ?n ?pm ts) ?s0] =>
    destruct (summary_run E C n pm ts s0) as (sz & kinds & types & Hz & Hk & Hty & Hd & Hpt & Hbt) end.
  { apply kinds_nodup. }
  { exact Hb. }
  rewrite Hz in H2. injection H2 as <- <-.
  exists ts, ck, tk, gk, mk, pk, pouts, kinds, types, dc, dt, dg, dm, x7.
  unfold same_data in Hd.
  cbn [p_counter p_timer p_meter p_plug p_gauge set_w set_counter set_timer set_gauge set_meter set_plug p_w p_ptime p_btype
       p_bad p_info] in *.
  destruct Hd as (D1 & D2 & D3 & D4 & D5 & D6 & D7).
  refine (conj eq_refl (conj (conj Hck Hcf) (conj (conj Htk Htf) (conj Hgk (conj (conj Hmk Hmf) (conj (conj Hpk (conj Hnd _)) (conj Hk (conj Hty _)))))))).
  { rewrite D5. exact Hf2. }
  refine (conj _ _).
  { cbn [c_internal cp_cls app]. reflexivity. }
  refine (conj _ (conj _ (conj _ (conj _ (conj _ (conj Hpt (conj Hbt (conj D6 D7)))))))).
  - rewrite D2. apply (imap_same (p_counter s) (fun k v => fst (gcc ts k v))). reflexivity.
  - rewrite D1. apply map_eq. intros k. rewrite map_lookup_imap, lookup_fmap. destruct (p_timer s !! k); reflexivity.
  - rewrite D3. apply (imap_same (p_gauge s) (fun k v => fst (gcg ts k v))). reflexivity.
  - rewrite D4. apply map_eq. intros k. rewrite map_lookup_imap, lookup_fmap. destruct (p_meter s !! k); reflexivity.
  - rewrite D5. exact Hdom.
Qed.

(** *** whatever happens later, the counters come first *)
Lemma cflush_counters i p (s s' : cst) l o ts :
  ntrunc (e_clock E (w_clk (p_w s))) = Ok ts ->
  (forall k c, p_counter s !! k = Some c -> exists z, ntrunc (ct_count c) = Ok z) ->
  grun (cflush i p) s = (s', l, o) ->
  exists kvs rest, kvs ≡ₚ map_to_list (p_counter s) /\ l = flat_map (out_of (gcc ts)) kvs ++ rest.
Proof.
  intros Hts Hz H. rewrite cflush_direct in H. unfold wflush, wbind at 1, wnow at 1, now in H. rewrite Hts in H.
  set (s1 := set_w _ s) in H. unfold wbind at 1 in H.
  destruct (wtimed E (cmc (i / 1000) ts) s1) as [[s2 l2] [[nc dc]|e]] eqn:Ec.
  - match type of H with context [?k s2] => destruct (k s2) as [[s3 l3] r3] end.
    apply gstage_pure in Ec. destruct Ec as (kvs & w & Hk & _ & -> & _). exists kvs, l3. split; [exact Hk|].
    unfold wend in H. destruct r3; injection H as <- <- <-; reflexivity.
  - exfalso. apply gstage_fail in Ec. destruct Ec as (k & c & Hk & Hc). cbn [Lc lget] in Hk. change (p_counter s1) with (p_counter s) in Hk.
    destruct (Hz k c Hk) as [z Hz']. unfold gcc, counter_report in Hc. cbn [snd] in Hc. rewrite Hz' in Hc. discriminate.
Qed.

(** *** a counter that cannot be truncated *)
Lemma cflush_counter_fail i p (s : cst) ts k c e :
  ntrunc (e_clock E (w_clk (p_w s))) = Ok ts ->
  p_counter s !! k = Some c -> ntrunc (ct_count c) = Exn e ->
  exists w kvs rest k' c' e', kvs ++ rest ≡ₚ map_to_list (p_counter s) /\
    grun (cflush i p) s = (set_w w s, flat_map (out_of (gcc ts)) kvs, Some e') /\
    p_counter s !! k' = Some c' /\ ntrunc (ct_count c') = Exn e'.
Proof.
  intros Hts Hk He. pose proof (cflush_direct i p s) as H. unfold wflush, wbind at 1, wnow at 1, now in H. rewrite Hts in H.
  set (s1 := set_w _ s) in H. unfold wbind at 1 in H.
  destruct (wtimed E (cmc (i / 1000) ts) s1) as [[s2 l2] [[nc dc]|e2]] eqn:Ec.
  - exfalso. apply gstage_pure in Ec. destruct Ec as (kvs & w & Hkv & _ & _ & _ & Hf).
    assert (Hin : (k, c) ∈ kvs) by (rewrite Hkv; apply elem_of_map_to_list; exact Hk).
    rewrite Forall_forall in Hf. destruct (Hf _ Hin) as [o Ho]. unfold gcc, counter_report in Ho. cbn [fst snd] in Ho. rewrite He in Ho. discriminate.
  - pose proof (gstage_fail _ _ _ _ _ _ _ Ec) as (k' & c' & Hk' & Hc').
    apply stage_same_any in Ec; [|reflexivity]. destruct Ec as (w & kvs & rest & Hp & -> & ->).
    exists w, kvs, rest, k', c', e2. split; [exact Hp|]. split; [rewrite H; reflexivity|]. split; [exact Hk'|].
    unfold gcc, counter_report in Hc'. cbn [snd] in Hc'. destruct (ntrunc (ct_count c')) as [z|e3]; [discriminate|]. injection Hc' as ->. reflexivity.
Qed.

(** *** when a flush raises *)
Inductive cflush_raises (s : cst) (e : exn) : Prop :=
| cfr_clock : ntrunc (e_clock E (w_clk (p_w s))) = Exn e -> cflush_raises s e
| cfr_counter k c : p_counter s !! k = Some c -> ntrunc (ct_count c) = Exn e -> cflush_raises s e
| cfr_timer ts k t : ntrunc (e_clock E (w_clk (p_w s))) = Ok ts -> p_timer s !! k = Some t ->
    snd (timer_report t ts) = Exn e -> cflush_raises s e
| cfr_meter ts k m : ntrunc (e_clock E (w_clk (p_w s))) = Ok ts -> p_meter s !! k = Some m ->
    snd (meter_report m ts) = Exn e -> cflush_raises s e
| cfr_plug ts k q : ntrunc (e_clock E (w_clk (p_w s))) = Ok ts -> p_plug s !! k = Some q -> plug_fails E ts q e ->
    cflush_raises s e.
Lemma cflush_fail i p (s s' : cst) l e :
  (forall t, is_Some (p_ptime s !! t) -> is_Some (p_btype s !! t)) ->
  grun (cflush i p) s = (s', l, Some e) -> cflush_raises s e.
Proof.
  intros Hb H. rewrite (cflush_direct i p s) in H.
  destruct (wflush E C cmc cmt cmg cmm cmp i p s) as [[s9 l9] r9] eqn:Ew. unfold wend in H.
  destruct r9 as [[]|e9]; [discriminate|]. injection H as -> -> ->.
  unfold wflush in Ew. apply wbind_exn in Ew. destruct Ew as [Ew|(s1 & l1 & t & l2 & H1 & H2 & ->)]; [discriminate|].
  unfold wnow, now in H1. injection H1 as <- <- <-.
  destruct (ntrunc (e_clock E (w_clk (p_w s)))) as [ts|e1] eqn:Ets.
  2:{ injection H2 as <- <- <-. apply cfr_clock. exact Ets. }
  set (w0 := World _ _ _ _) in H2.
  apply wbind_exn in H2. destruct H2 as [Hc|(sc & lc & [nc dc] & l3 & Hc & H2 & ->)].
  { apply gstage_fail in Hc. destruct Hc as (k & v & Hk & Hv). unfold gcc, counter_report in Hv. cbn [snd] in Hv.
    destruct (ntrunc (ct_count v)) as [z|e1] eqn:Ez; [discriminate|]. injection Hv as ->.
    eapply cfr_counter; [exact Hk|exact Ez]. }
  apply gstage_pure in Hc. destruct Hc as (ck & w1 & Hck & -> & -> & -> & Hcf).
  apply wbind_exn in H2. destruct H2 as [Ht|(st & lt & [nt dt] & l4 & Ht & H2 & ->)].
  { apply gstage_fail in Ht. destruct Ht as (k & v & Hk & Hv). unfold gct in Hv. cbn [snd] in Hv.
    destruct (snd (timer_report v ts)) eqn:Et; [discriminate|]. injection Hv as ->.
    eapply cfr_timer; [exact Ets|exact Hk|exact Et]. }
  apply gstage_pure in Ht. destruct Ht as (tk & w2 & Htk & -> & -> & -> & Htf).
  apply wbind_exn in H2. destruct H2 as [Hg|(sg & lg & [ng dg] & l5 & Hg & H2 & ->)].
  { apply gstage_fail in Hg. destruct Hg as (k & v & Hk & Hv). discriminate. }
  apply gstage_pure in Hg. destruct Hg as (gk & w3 & Hgk & -> & -> & -> & _).
  apply wbind_exn in H2. destruct H2 as [Hm|(sm & lm & [nm dm] & l6 & Hm & H2 & ->)].
  { apply gstage_fail in Hm. destruct Hm as (k & v & Hk & Hv). unfold gm in Hv. cbn [snd] in Hv.
    destruct (snd (meter_report v ts)) eqn:Em; [discriminate|]. injection Hv as ->.
    eapply cfr_meter; [exact Ets|exact Hk|exact Em]. }
  apply gstage_pure in Hm. destruct Hm as (mk & w5 & Hmk & -> & -> & -> & Hmf).
  apply wbind_exn in H2. destruct H2 as [Hp|(sp & lp & [np dpl] & l7 & Hp & H2 & ->)].
  { apply wtimed_inv in Hp. destruct Hp as (w6 & s6 & r6 & Hp & Hp').
    destruct r6 as [n6|e6]; [destruct Hp' as [_ [x Hx]]; discriminate|]. destruct Hp' as [-> [= <-]].
    apply wlens_fail in Hp. destruct Hp as (k & v & wa & v' & wb & Hk & Hv). unfold fp in Hv.
    destruct (plug_flush E v ts wa) as [[q [ms|e7]] w7] eqn:Eq; [discriminate|]. injection Hv as <- -> <-.
    eapply cfr_plug; [exact Ets|exact Hk|]. exists wa. rewrite Eq. reflexivity. }
  exfalso.
  apply wtimed_inv in Hp. destruct Hp as (w6 & s6 & r6 & Hp & Hp').
  destruct r6 as [n6|e6]; [|destruct Hp'; discriminate]. destruct Hp' as [[w7 ->] [x7 [= -> ->]]].
  apply wlens_ok in Hp. destruct Hp as (pk & pouts & m' & w8 & Hpk & Hnd & -> & Hdom & Hf2 & -> & ->).
  cbn [Lc Lt Lg Lm Lp lget lput p_counter p_timer p_meter p_plug p_gauge set_w set_counter set_timer set_gauge set_meter set_plug
       p_w p_ptime p_btype p_bad p_info p_lfd p_lpd] in *.
  unfold wsummary in H2.
  match type of H2 with context [grun (flush_summary E C ?n ?pm ts) ?s0] =>
    destruct (summary_run E C n pm ts s0) as (sz & kinds & types & Hz & Hk & Hty & Hd & Hpt & Hbt) end.
  { apply kinds_nodup. }
  { exact Hb. }
  rewrite Hz in H2. discriminate.
Qed.
End conf.
