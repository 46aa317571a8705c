(** The durations the status page shows are those the last flush reported. *)
From Verif Require Import Base StrFacts Num NumFacts Env Stats Glob Metrics Gen GenFacts Processor
  LineSpec LineFacts FloatFacts ProcFacts ProcSpec ReceiveFacts ReceiveFacts2 ReceiveFacts3 PlugFacts
  Sched FlushInv FlushOk SchedFacts FlushRun FlushStages FlushComp FlushFail TimerFacts FlushSpec FlushParts StepFacts HistFacts FlushDerived Service ServiceSpec.

Section stages.
Context `{NN : Num} {TM CM GM : Type} (E : env) (C : @cls NN TM CM GM).
Notation st := (pst TM CM GM).
Definition total (l : list num) : num := fold_left nadd l n0.
Lemma kinds_total (pm : gmap str (Z * num)) ts names : forall n (s : st), Forall (fun k => is_Some (pm !! k)) names ->
  exists s' kvs n', vrun (fun name s' => match pm !! name with
                               | Some (ev, du) => summary_kind C ts name ev du s'
                               | None => (s', Ok None)
                               end) names n s = (s', flat_map (kind_items C ts) kvs, Ok n') /\
    s' = set_lfd (fold_left nadd (map (fun kv => snd (snd kv)) kvs) (p_lfd s)) s /\ length kvs = length names.
Proof.
  induction names as [|k names IH]; intros n s Hf.
  - exists s, [], n. cbn. split; [reflexivity|]. split; [destruct s; reflexivity|reflexivity].
  - inversion Hf as [|? ? [[ev du] Hk] Hf']; subst. cbn [vrun]. rewrite Hk.
    unfold summary_kind at 1.
    destruct (IH (n + 1) (set_lfd (nadd (p_lfd s) du) s) Hf') as (s' & kvs & n' & H1 & -> & Hlen).
    rewrite H1. eexists _, ((k, (ev, du)) :: kvs), n'. split; [reflexivity|]. split; [destruct s; reflexivity|cbn; congruence].
Qed.
Lemma types_total ts ks : forall n (s : st), Forall (fun t => is_Some (p_ptime s !! t)) ks ->
  (forall t, is_Some (p_ptime s !! t) -> is_Some (p_btype s !! t)) ->
  exists s' kvs n', vrun (visit' p_ptime (summary_type C ts)) ks n s =
      (s', flat_map (type_items C ts (p_btype s)) kvs, Ok n') /\
    s' = set_lpd (fold_left nadd (map snd kvs) (p_lpd s)) s /\ length kvs = length ks.
Proof.
  induction ks as [|k ks IH]; intros n s Hf Hb.
  - exists s, [], n. cbn. split; [reflexivity|]. split; [destruct s; reflexivity|reflexivity].
  - inversion Hf as [|? ? [du Hk] Hf']; subst. cbn [vrun]. unfold visit' at 1. rewrite Hk.
    unfold summary_type at 1. destruct (Hb k ltac:(eauto)) as [c Hc]. rewrite Hc. cbv beta. rewrite Hc.
    destruct (IH (n + 1) (set_lpd (nadd (p_lpd s) du) s) Hf' Hb) as (s' & kvs & n' & H1 & -> & Hlen).
    rewrite H1. eexists _, ((k, du) :: kvs), n'. split; [|split; [destruct s; reflexivity|cbn; congruence]].
    cbn [flat_map type_items app p_ptime p_btype set_lpd]. rewrite Hc. reflexivity.
Qed.
Lemma summary_total num_stats (pm : list (str * (Z * num))) ts (s : st) : NoDup pm.*1 ->
  (forall t, is_Some (p_ptime s !! t) -> is_Some (p_btype s !! t)) ->
  exists s' kinds types,
    grun (flush_summary E C num_stats pm ts) s =
      (s', DP (c_internal C ++ B "numStats") (VI num_stats) ts ::
           flat_map (kind_items C ts) kinds ++ flat_map (type_items C ts (p_btype s)) types, None) /\
    p_lfd s' = total (map (fun kv => snd (snd kv)) kinds) /\ p_lpd s' = total (map snd types) /\
    length kinds = length pm /\ length types = size (p_ptime s).
Proof.
  intros Hnd Hb. unfold flush_summary. cbn [grun].
  set (m := list_to_map pm : gmap str (Z * num)).
  pose proof (keys_perm E m (p_w s)) as Hp. destruct (dict_keys E m (p_w s)) as [names w] eqn:Ek. cbn [fst] in Hp.
  rewrite (grun_giter (fun _ => true) _ (fun s2 : st => p_ptime s2 = p_ptime s2)).
  2:{ reflexivity. }
  2:{ intros k s2 _. destruct (m !! k) as [[ev du]|]; cbn; auto. }
  2:{ reflexivity. }
  destruct (kinds_total m ts names 0 (set_lfd n0 (set_w w s)) (keys_all m names Hp)) as (s1 & kvs & n' & H1 & Hs1 & L1).
  rewrite H1. cbn [resume]. cbn [grun].
  rewrite (gdict_runs E p_ptime (summary_type C ts)).
  2:{ reflexivity. }
  2:{ intros k v s2 _. unfold summary_type. destruct (p_btype s2 !! k); [|exact I]. split; [reflexivity|].
      destruct (p_btype s2 !! k); reflexivity. }
  unfold wdict.
  pose proof (keys_perm E (p_ptime (set_lpd n0 s1)) (p_w (set_lpd n0 s1))) as Hp2.
  destruct (dict_keys E (p_ptime (set_lpd n0 s1)) (p_w (set_lpd n0 s1))) as [tks w2] eqn:Ek2. cbn [fst] in Hp2.
  destruct (types_total ts tks 0 (set_w w2 (set_lpd n0 s1))) as (s2 & tvs & n2 & H2 & Hs2 & L2).
  { cbn [p_ptime set_lpd set_w]. apply keys_all. exact Hp2. }
  { subst s1. cbn [p_ptime p_btype set_lpd set_w set_lfd]. exact Hb. }
  rewrite H2. cbn [resume]. cbn [grun].
  eexists _, kvs, tvs. split; [|split; [|split; [|split]]].
  - rewrite app_nil_r. subst s1. reflexivity.
  - subst s2 s1. reflexivity.
  - subst s2 s1. reflexivity.
  - rewrite L1, Hp. unfold m. rewrite fmap_length. apply Permutation_length. apply map_to_list_to_map. exact Hnd.
  - rewrite L2, Hp2. subst s1. rewrite fmap_length. reflexivity.
Qed.
End stages.

Section mp.
Context `{NN : Num} (E : env) (plugins : list factory).
Notation C := (mp_cls E plugins).
Lemma flush_total i p (s s' : mst) l :
  (forall t, is_Some (p_ptime s !! t) -> is_Some (p_btype s !! t)) ->
  grun (flush E C i p) s = (s', l, None) ->
  exists ts body d kinds types,
    l = body ++ d :: flat_map (kind_items C ts) kinds ++ flat_map (type_items C ts (p_btype s)) types /\
    dp_name d = B "statsd.numStats" /\
    p_lfd s' = total (map (fun kv => snd (snd kv)) kinds) /\ p_lpd s' = total (map snd types) /\
    length kinds = 5%nat /\ length types = size (p_ptime s).
Proof.
  intros Hb H. rewrite flush_direct in H.
  destruct (wflush E C (mc E) (mt E) mgauge (mm E) (mplug E) i p s) as [[s9 l9] r9] eqn:Ew. unfold wend in H.
  destruct r9 as [[]|e]; [|discriminate]. injection H as -> ->.
  unfold wflush in Ew. apply wbind_ok in Ew. destruct Ew as (s1 & l1 & t & l2 & H1 & H2 & ->).
  unfold wnow, now in H1. injection H1 as <- <- <-.
  destruct (ntrunc (e_clock E (w_clk (p_w s)))) as [ts|e] eqn:Ets; [|discriminate].
  set (w0 := World _ _ _ _) in H2.
  apply wbind_ok in H2. destruct H2 as (sc & lc & [nc dc] & l3 & Hc & H2 & ->).
  apply wbind_ok in H2. destruct H2 as (st & lt & [nt dt] & l4 & Ht & H2 & ->).
  apply wbind_ok in H2. destruct H2 as (sg & lg & [ng dg] & l5 & Hg & H2 & ->).
  apply wbind_ok in H2. destruct H2 as (sm & lm & [nm dm] & l6 & Hm & H2 & ->).
  apply wbind_ok in H2. destruct H2 as (sp & lp & [np dpl] & l7 & Hp & H2 & ->).
  apply stage_pure in Hc. destruct Hc as (ck & w1 & Hck & -> & -> & -> & Hcf).
  apply stage_pure in Ht. destruct Ht as (tk & w2 & Htk & -> & -> & -> & Htf).
  apply wtimed_inv in Hg. destruct Hg as (w3 & s3 & r3 & Hg & Hg').
  unfold mgauge in Hg. injection Hg as <- <- <-. destruct Hg' as [[w4 ->] [x4 [= -> ->]]].
  apply stage_pure in Hm. destruct Hm as (mk & w5 & Hmk & -> & -> & -> & Hmf).
  apply wtimed_inv in Hp. destruct Hp as (w6 & s6 & r6 & Hp & Hp').
  destruct r6 as [n6|e]; [|destruct Hp'; discriminate]. destruct Hp' as [[w7 ->] [x7 [= -> ->]]].
  apply wlens_ok in Hp. destruct Hp as (pk & pouts & m' & w8 & Hpk & Hnd & -> & Hdom & Hf2 & -> & ->).
  cbn [Lc Lt Lm Lp lget lput p_counter p_timer p_meter p_plug p_gauge set_w set_counter set_timer set_meter set_plug
       p_w p_ptime p_btype p_bad p_info p_lfd p_lpd] in *.
  unfold wsummary in H2.
  match type of H2 with context [grun (flush_summary E C ?n ?pm ts) ?s0] =>
    destruct (summary_total E C n pm ts s0) as (sz & kinds & types & Hz & Hk & Hty & L1 & L2) end.
  { apply kinds_nodup. }
  { exact Hb. }
  rewrite Hz in H2. injection H2 as <- <-.
  match goal with |- context [?a ++ ?b ++ ?c ++ ?d ++ ?e ++ ?f ++ _ :: _] => exists ts, (a ++ b ++ c ++ d ++ e ++ f) end.
  eexists _, kinds, types. split; [rewrite <- !app_assoc; reflexivity|]. split; [reflexivity|].
  split; [exact Hk|]. split; [exact Hty|]. split; [exact L1|exact L2].
Qed.
Lemma prefix_named d : B "statsd." `prefix_of` dp_name d <-> named (NN := NN) (B "statsd.") d.
Proof. reflexivity. Qed.
Lemma none_named (l : list dp) : Forall (fun d => ~ named (B "statsd.") d) l -> omap reported_ms l = [].
Proof.
  induction 1 as [|d l H _ IH]; [reflexivity|]. cbn [omap list_omap]. unfold reported_ms at 1.
  destruct (dp_value d); try exact IH. rewrite decide_False by exact H. exact IH.
Qed.
Lemma ends_duration (p : str) : B ".duration" `suffix_of` (p ++ B ".duration").
Proof. exists p. reflexivity. Qed.
Lemma kinds_ms ts kinds : omap reported_ms (flat_map (kind_items C ts) kinds) = map (fun kv => nmul (snd (snd kv)) thousand) kinds.
Proof.
  induction kinds as [|[k [n x]] kinds IH]; [reflexivity|]. cbn [flat_map kind_items map]. cbn [app omap list_omap].
  unfold reported_ms at 1. cbn [dp_value]. unfold reported_ms at 1. cbn [dp_value dp_name c_internal mp_cls].
  rewrite decide_True by (eexists; reflexivity).
  rewrite decide_True by (rewrite !app_assoc; apply ends_duration).
  f_equal. exact IH.
Qed.
Lemma types_ms ts m types : omap reported_ms (flat_map (type_items C ts m) types) = map (fun kv => nmul (snd kv) thousand) types.
Proof.
  induction types as [|[k x] types IH]; [reflexivity|]. cbn [flat_map type_items map]. cbn [app omap list_omap].
  unfold reported_ms at 1. cbn [dp_value]. unfold reported_ms at 1. cbn [dp_value dp_name c_internal mp_cls].
  rewrite decide_True by (eexists; reflexivity).
  rewrite decide_True by (rewrite !app_assoc; apply ends_duration).
  f_equal. exact IH.
Qed.
Lemma flat_length {A D} (f : A -> list D) n l : (forall a, length (f a) = n) -> length (flat_map f l) = (n * length l)%nat.
Proof. intros H. induction l as [|a l IH]; [cbn; lia|]. cbn [flat_map length]. rewrite app_length, H, IH. lia. Qed.
Lemma shown_durations i p (s s' : mst) l : reachable E plugins s -> 1000 <= i ->
  grun (flush E C i p) s = (s', l, None) ->
  exists fs rs, omap reported_ms l = map (fun x => nmul x thousand) (fs ++ rs) /\
    p_lfd s' = total fs /\ p_lpd s' = total rs.
Proof.
  intros Hr Hi H. pose proof (reachable_inv E plugins s Hr) as Hinv.
  destruct (flush_total i p s s' l (fun t Ht => proj1 (inv_bt s Hinv t) Ht) H) as (ts & body & d & kinds & types & El & Hd & H1 & H2 & L1 & L2).
  destruct (summary_flushed E plugins i p s s' l Hr Hi H) as (ts2 & body2 & kinds2 & types2 & dc & dt & dg & dm & dpl & Hs).
  cbv zeta in Hs. destruct Hs as (_ & Hb & Hk2 & Ht2 & El2).
  exists (map (fun kv => snd (snd kv)) kinds), (map snd types). split; [|auto].
  assert (Ebody : body = body2).
  { rewrite El in El2. apply (app_inj_2 body body2) in El2; [tauto|].
    cbn [length]. rewrite !app_length. f_equal.
    assert (F1 : forall a, length (kind_items C ts a) = 2%nat) by (intros [k [n x]]; reflexivity).
    assert (F2 : forall a, length (type_items C ts (p_btype s) a) = 2%nat) by (intros [k x]; reflexivity).
    rewrite (flat_length _ 2 _ F1), (flat_length _ 2 _ F2).
    rewrite (flat_length _ 2 kinds2) by (intros [k [n x]]; reflexivity). rewrite (flat_length _ 2 types2) by (intros [k x]; reflexivity).
    rewrite L1, L2, Hk2, Ht2. reflexivity. }
  subst body2. rewrite El, omap_app, (none_named body Hb). cbn [app omap list_omap].
  assert (Hn : reported_ms d = None).
  { unfold reported_ms. rewrite Hd. destruct (dp_value d); reflexivity. }
  rewrite Hn, omap_app, kinds_ms, types_ms, map_app, !map_map. reflexivity.
Qed.
End mp.

(** ** exact arithmetic *)
From Coq Require Import QArith Qcanon Lqa.
Open Scope Z_scope.
Lemma pos_cases k : (0 < k)%Qc -> Qczero k = false /\ Qcneg k = false.
Proof.
  intros H. split.
  - destruct (Qczero k) eqn:E; [|reflexivity]. apply Qc_eqb_eq in E. subst. rewrite QcZ_0 in H. destruct (Qclt_not_eq _ _ H eq_refl).
  - apply Qc_ltb_ge. rewrite QcZ_0. apply Qclt_le_weak. exact H.
Qed.
Lemma xmul_add k a b : (0 < k)%Qc -> xmul (xadd a b) (Fin k) = xadd (xmul a (Fin k)) (xmul b (Fin k)).
Proof.
  intros H. destruct (pos_cases k H) as [H1 H2].
  destruct a as [p|s|], b as [q|t|]; cbn; rewrite ?H1, ?H2, ?xorb_false_r; cbn; rewrite ?xorb_false_r; try reflexivity.
  - f_equal. ring.
  - destruct (Bool.eqb s t); cbn; rewrite ?H1, ?H2, ?xorb_false_r; reflexivity.
Qed.
Lemma xltb_scale k a b : (0 < k)%Qc -> xltb (xmul a (Fin k)) (xmul b (Fin k)) = xltb a b.
Proof.
  intros H. destruct (pos_cases k H) as [H1 H2].
  destruct a as [p|s|], b as [q|t|]; cbn; rewrite ?H1, ?H2, ?xorb_false_r; cbn; try reflexivity.
  destruct (Qc_ltb p q) eqn:E.
  - apply Qc_ltb_lt. apply Qc_ltb_lt in E. apply Qcmult_lt_compat_r; assumption.
  - apply Qc_ltb_ge. apply Qc_ltb_ge in E. apply Qcmult_le_compat_r; [exact E|]. apply Qclt_le_weak. exact H.
Qed.
Lemma xsum_scale k l : (0 < k)%Qc -> xsum (map (fun x => xmul x (Fin k)) l) = xmul (xsum l) (Fin k).
Proof.
  intros H. induction l as [|x l IH].
  - cbn. unfold x0. f_equal. rewrite QcZ_0. ring.
  - cbn [map]. rewrite !xsum_cons, IH, xmul_add by exact H. reflexivity.
Qed.
Lemma status_exact sq (E : env (NN := XQ sq)) plugins i p (s s' : mst) l : reachable E plugins s -> 1000 <= i ->
  grun (flush E (mp_cls E plugins) i p) s = (s', l, None) ->
  status_error i (p_lpd s') (p_lfd s') = xltb (Fin (QcZ (700 * i))) (xsum (omap reported_ms l)).
Proof.
  intros Hr Hi H. destruct (shown_durations E plugins i p s s' l Hr Hi H) as (fs & rs & E1 & E2 & E3).
  rewrite E1, E2, E3.
  change (total (NN := XQ sq)) with xsum.
  change (map (fun x => nmul x thousand) (fs ++ rs)) with (map (fun x => xmul x (Fin (QcZ 1000))) (fs ++ rs)).
  assert (Hk : (0 < QcZ 1000)%Qc) by (rewrite <- QcZ_0; apply QcZ_lt; lia).
  rewrite xsum_scale by exact Hk. rewrite xsum_app.
  change (status_error (NN := XQ sq) i (xsum rs) (xsum fs)) with (xltb (xmul (Fin (QcZ i)) (xlit (FDec false 7 (-1)))) (xadd (xsum rs) (xsum fs))).
  rewrite (xadd_comm (xsum rs)).
  rewrite <- (xltb_scale (QcZ 1000) _ (xadd (xsum fs) (xsum rs)) Hk). f_equal. cbn [xmul xlit]. f_equal.
  unfold Qcpow10. cbn [Z.leb Z.compare]. change (- -1)%Z with 1. change (10 ^ 1)%Z with 10.
  rewrite !QcZ_mul. apply Qc_is_canon.
  rewrite !this_mul, this_inv, !QcZ_this. unfold Qeq, Qmult, Qinv, inject_Z. cbn. lia.
Qed.
