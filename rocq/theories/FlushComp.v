(** An undisturbed flush of the compliant processor. *)
From Verif Require Import Base StrFacts Num Env Stats Glob Metrics Gen GenFacts Processor
  LineSpec LineFacts FloatFacts ProcFacts ProcSpec ReceiveFacts ReceiveFacts2 ReceiveFacts3 PlugFacts
  Sched FlushInv FlushOk SchedFacts FlushRun FlushStages.

Section comp.
Context `{NN : Num} (E : env) (plugins : list factory).
Notation C := (mp_cls E plugins).

(** *** one entry of each kind *)
Definition gc (interval ts : Z) (key : str) (count : num) : num * res (option (list dp)) :=
  (n0, if interval =? 0 then Exn ZeroDivisionError
       else Ok (Some [DP (stats_prefix ++ key) (VF (ndiv count (nofZ interval))) ts;
                      DP (count_prefix ++ key) (VF count) ts])).
Definition timer_items (percent ts : Z) (key : str) (t : num * num * num * num * Z) : list dp :=
  let '(mean, upper, tupper, lower, count) := t in
  let item (suffix : str) (v : pval) := DP (timer_prefix ++ key ++ suffix) v ts in
  [item (B ".count") (VI count); item (B ".lower") (VF lower);
   item (B ".mean") (VF mean); item (B ".upper") (VF upper);
   item (B ".upper_" ++ show_Z percent) (VF tupper)].
Definition gt (percent ts : Z) (key : str) (ds : list num) : list num * res (option (list dp)) :=
  ([], match ds with
       | [] => Ok None
       | _ => match timer_stats percent ds with
              | Exn e => Exn e
              | Ok t => Ok (Some (timer_items percent ts key t))
              end
       end).
Definition gm (ts : Z) (key : str) (m : meter) : meter * res (option (list dp)) :=
  (fst (meter_report m ts), match snd (meter_report m ts) with Exn e => Exn e | Ok ms => Ok (Some ms) end).
Definition fp (ts : Z) (key : str) (p : plug) (w : world) : plug * res (option (list dp)) * world :=
  let '(p', r, w') := plug_flush E p ts w in
  (p', match r with Exn e => Exn e | Ok ms => Ok (Some ms) end, w').
Definition gauge_item (ts : Z) (vk : num * str) : list dp :=
  [DP (gauge_prefix ++ snd vk ++ B ".value") (VF (fst vk)) ts].

Definition mc (i ts : Z) : W mst Z := wlens E (Lc _ _ _) (pure (gc i ts)).
Definition mt (p ts : Z) : W mst Z := wlens E (Lt _ _ _) (pure (gt p ts)).
Definition mgauge (ts : Z) : W mst Z := fun s =>
  (s, flat_map (gauge_item ts) (p_gauge s), Ok (Z.of_nat (length (p_gauge s)))).
Definition mm (ts : Z) : W mst Z := wlens E (Lm _ _ _) (pure (gm ts)).
Definition mplug (ts : Z) : W mst Z := wlens E (Lp _ _ _) (fp ts).

Lemma mc_runs i ts : loop_runs (mp_flush_counter E i ts) (mc i ts).
Proof.
  apply (lens_runs E (Lc _ _ _)). intros key v s Hs. unfold pure, gc. cbn [fst snd].
  destruct (i =? 0); destruct s; reflexivity.
Qed.
Lemma mt_runs p ts : loop_runs (mp_flush_timer E p ts) (mt p ts).
Proof.
  apply (lens_runs E (Lt _ _ _)). intros key v s Hs. cbn [Lt lget lput] in *. unfold pure, gt. cbn [fst snd].
  destruct v as [|x v].
  - rewrite insert_id by exact Hs. destruct s; reflexivity.
  - destruct (timer_stats p (x :: v)) as [[[[[a b] c] d] e]|e]; destruct s; reflexivity.
Qed.
Lemma mm_runs ts : loop_runs (flush_meter E ts) (mm ts).
Proof.
  apply (lens_runs E (Lm _ _ _)). intros key v s Hs. cbn [Lm lget lput] in *. unfold pure, gm. cbn [fst snd].
  destruct (meter_report v ts) as [m' [ms|e]]; destruct s; reflexivity.
Qed.
Lemma mp_runs ts : loop_runs (flush_plugins E ts) (mplug ts).
Proof.
  apply (lens_runs E (Lp _ _ _)). intros key v s Hs. cbn [Lp lget lput] in *. unfold fp.
  destruct (plug_flush E v ts (p_w s)) as [[p' [ms|e]] w']; destruct s; reflexivity.
Qed.
Lemma mg_runs ts : loop_runs (mp_flush_gauge ts) (mgauge ts).
Proof.
  intros k s. unfold mp_flush_gauge. cbn [grun].
  rewrite (grun_giter _ _ (fun s' : mst => s' = s)).
  - f_equal. unfold mgauge.
    assert (Hg : forall (l : list (num * str)) n, vrun (fun '(v, key) (s' : mst) =>
             (s', Ok (Some ([DP (gauge_prefix ++ key ++ B ".value") (VF v) ts], no_post)))) l n s
        = (s, flat_map (gauge_item ts) l, Ok (n + Z.of_nat (length l)))).
    { induction l as [|[v key] l IH]; intros n; cbn [vrun flat_map length].
      - rewrite Z.add_0_r. reflexivity.
      - unfold no_post at 1. rewrite IH. do 2 f_equal. lia. }
    rewrite Hg. do 2 f_equal.
  - intros s' ->. apply Nat.eqb_refl.
  - intros [v key] s' ->. cbn. auto.
  - reflexivity.
Qed.

Lemma flush_direct i p : runs (flush E C i p) (wflush E C mc mt mgauge mm mplug i p).
Proof. apply flush_runs; [apply mc_runs|apply mt_runs|apply mg_runs|apply mm_runs|apply mp_runs]. Qed.

(** *** a flush that completes *)
Definition kind_table (nc nt ng nm np : Z) (dc dt dg dm dpl : num) : list (str * (Z * num)) :=
  [(B "counter", (nc, dc)); (B "timer", (nt, dt)); (B "gauge", (ng, dg));
   (B "meter", (nm, dm)); (B "plugin", (np, dpl))].
Definition count_if {X} (f : X -> bool) (l : list X) : Z := Z.of_nat (length (List.filter f l)).

Lemma kinds_nodup nc nt ng nm np dc dt dg dm dpl : NoDup (kind_table nc nt ng nm np dc dt dg dm dpl).*1.
Proof. apply (bool_decide_unpack _). vm_compute. exact I. Qed.

Lemma stage_pure {V} (L : lens (list num) num (list (num * str)) V) g s s' l n x :
  wtimed E (wlens E L (pure g)) s = (s', l, Ok (n, x)) ->
  exists kvs w', kvs ≡ₚ map_to_list (lget L s) /\
    s' = set_w w' (lput L (map_imap (fun k v => Some (fst (g k v))) (lget L s)) s) /\
    l = flat_map (out_of g) kvs /\ n = count_if (group_of g) kvs /\
    Forall (fun kv => exists o, snd (g (fst kv) (snd kv)) = Ok o) kvs.
Proof.
  intros H. apply wtimed_inv in H. destruct H as (w & s1 & r1 & H1 & H2).
  destruct r1 as [n1|e]; [|destruct H2; discriminate]. destruct H2 as [[w' ->] [x' [= <- <-]]].
  apply pure_ok in H1. destruct H1 as (w1 & kvs & Hk & -> & -> & Hn & Hf). rewrite lgw in Hk |- *.
  exists kvs, w'. split; [exact Hk|]. split; [|auto]. rewrite lpw. reflexivity.
Qed.

Lemma flush_inv i p (s s' : mst) l :
  (forall t, is_Some (p_ptime s !! t) -> is_Some (p_btype s !! t)) ->
  grun (flush E C i p) s = (s', l, None) ->
  exists ts ck tk mk pk pouts kinds types dc dt dg dm dpl,
    ntrunc (e_clock E (w_clk (p_w s))) = Ok ts /\
    (ck ≡ₚ map_to_list (p_counter s) /\
     Forall (fun kv => exists o, snd (gc (i / 1000) ts (fst kv) (snd kv)) = Ok o) ck) /\
    (tk ≡ₚ map_to_list (p_timer s) /\
     Forall (fun kv => exists o, snd (gt p ts (fst kv) (snd kv)) = Ok o) tk) /\
    (mk ≡ₚ map_to_list (p_meter s) /\
     Forall (fun kv => exists o, snd (gm ts (fst kv) (snd kv)) = Ok o) mk) /\
    (pk ≡ₚ (map_to_list (p_plug s)).*1 /\ NoDup pk /\
     Forall2 (fun k o => exists v v' wa wb, p_plug s !! k = Some v /\ fp ts k v wa = (v', Ok o, wb) /\
                                            p_plug s' !! k = Some v') pk pouts) /\
    kinds ≡ₚ kind_table (count_if (group_of (gc (i / 1000) ts)) ck) (count_if (group_of (gt p ts)) tk)
               (Z.of_nat (length (p_gauge s))) (count_if (group_of (gm ts)) mk) (groups pouts)
               dc dt dg dm dpl /\
    types ≡ₚ map_to_list (p_ptime s) /\
    l = flat_map (out_of (gc (i / 1000) ts)) ck ++
        flat_map (out_of (gt p ts)) tk ++
        flat_map (gauge_item ts) (p_gauge s) ++
        flat_map (out_of (gm ts)) mk ++
        emitted pouts ++
        DP (B "statsd.numStats")
           (VI (count_if (group_of (gc (i / 1000) ts)) ck + count_if (group_of (gt p ts)) tk +
                Z.of_nat (length (p_gauge s)) + count_if (group_of (gm ts)) mk + groups pouts)) ts ::
        flat_map (kind_items C ts) kinds ++ flat_map (type_items C ts (p_btype s)) types /\
    p_counter s' = (fun _ => n0) <$> p_counter s /\
    p_timer s' = (fun _ => []) <$> p_timer s /\
    p_gauge s' = p_gauge s /\
    p_meter s' = (fun m => fst (meter_report m ts)) <$> p_meter s /\
    dom (p_plug s') = dom (p_plug s) /\
    p_ptime s' = ∅ /\ p_btype s' = ∅ /\ p_bad s' = p_bad s /\ p_info s' = p_info s.
Proof.
  intros Hb H. rewrite flush_direct in H.
  destruct (wflush E C mc mt mgauge mm mplug i p s) as [[s9 l9] r9] eqn:Ew. unfold wend in H.
  destruct r9 as [[]|e]; [|discriminate]. injection H as -> ->.
  unfold wflush in Ew. apply wbind_ok in Ew. destruct Ew as (s1 & l1 & t & l2 & H1 & H2 & ->).
  unfold wnow, now in H1. injection H1 as <- <- <-.
  destruct (ntrunc (e_clock E (w_clk (p_w s)))) as [ts|e] eqn:Ets; [|discriminate].
  set (w0 := World _ _ _ _) in H2.
  apply wbind_ok in H2. destruct H2 as (sc & lc & [nc dc] & l3 & Hc & H2 & ->).
  apply wbind_ok in H2. destruct H2 as (st & lt & [nt dt] & l4 & Ht & H2 & ->).
  apply wbind_ok in H2. destruct H2 as (sg & lg & [ng dg] & l5 & Hg & H2 & ->).
  apply wbind_ok in H2. destruct H2 as (sm & lm & [nm dm] & l6 & Hm & H2 & ->).
  apply wbind_ok in H2. destruct H2 as (sp & lp & [np dpl] & l7 & Hp & H2 & ->).
  apply stage_pure in Hc. destruct Hc as (ck & w1 & Hck & -> & -> & -> & Hcf).
  apply stage_pure in Ht. destruct Ht as (tk & w2 & Htk & -> & -> & -> & Htf).
  apply wtimed_inv in Hg. destruct Hg as (w3 & s3 & r3 & Hg & Hg').
  unfold mgauge in Hg. injection Hg as <- <- <-. destruct Hg' as [[w4 ->] [x4 [= -> ->]]].
  apply stage_pure in Hm. destruct Hm as (mk & w5 & Hmk & -> & -> & -> & Hmf).
  apply wtimed_inv in Hp. destruct Hp as (w6 & s6 & r6 & Hp & Hp').
  destruct r6 as [n6|e]; [|destruct Hp'; discriminate]. destruct Hp' as [[w7 ->] [x7 [= -> ->]]].
  apply wlens_ok in Hp. destruct Hp as (pk & pouts & m' & w8 & Hpk & Hnd & -> & Hdom & Hf2 & -> & ->).
  cbn [Lc Lt Lm Lp lget lput p_counter p_timer p_meter p_plug p_gauge set_w set_counter set_timer set_meter set_plug
       p_w p_ptime p_btype p_bad p_info p_lfd p_lpd] in *.
  unfold wsummary in H2.
  match type of H2 with context [grun (flush_summary E C ?n ?pm ts) ?s0] =>
    destruct (summary_run E C n pm ts s0) as (sz & kinds & types & Hz & Hk & Hty & Hd & Hpt & Hbt) end.
  { apply kinds_nodup. }
  { exact Hb. }
  rewrite Hz in H2. injection H2 as <- <-.
  exists ts, ck, tk, mk, pk, pouts, kinds, types, dc, dt, x4, dm, x7.
  unfold same_data in Hd.
  cbn [p_counter p_timer p_meter p_plug p_gauge set_w set_counter set_timer set_meter set_plug p_w p_ptime p_btype
       p_bad p_info] in *.
  destruct Hd as (D1 & D2 & D3 & D4 & D5 & D6 & D7).
  refine (conj eq_refl (conj (conj Hck Hcf) (conj (conj Htk Htf) (conj (conj Hmk Hmf) (conj (conj Hpk (conj Hnd _)) (conj Hk (conj Hty _))))))).
  { rewrite D5. exact Hf2. }
  refine (conj _ _).
  { cbn [c_internal mp_cls app]. reflexivity. }
  refine (conj _ (conj _ (conj D3 (conj _ (conj _ (conj Hpt (conj Hbt (conj D6 D7)))))))).
  - rewrite D2. apply map_eq. intros k. rewrite map_lookup_imap, lookup_fmap. destruct (p_counter s !! k); reflexivity.
  - rewrite D1. apply map_eq. intros k. rewrite map_lookup_imap, lookup_fmap. destruct (p_timer s !! k); reflexivity.
  - rewrite D4. apply map_eq. intros k. rewrite map_lookup_imap, lookup_fmap. destruct (p_meter s !! k); reflexivity.
  - rewrite D5. exact Hdom.
Qed.
End comp.
