(** The whole flush in direct style, for any processor class. *)
From Verif Require Import Base StrFacts Num Env Stats Glob Metrics Gen GenFacts Processor FlushRun.

Section stages.
Context `{NN : Num} {TM CM GM : Type} (E : env) (C : @cls NN TM CM GM).
Notation st := (pst TM CM GM).

Definition wnow : W st num := fun s => let '(t, w) := now E (p_w s) in (set_w w s, [], Ok t).
Definition wtimed (m : W st Z) : W st (Z * num) :=
  wbind wnow (fun start => wbind m (fun n => wbind wnow (fun stop => wret (n, nsub stop start)))).

Lemma timed_runs loop m k kk : loop_runs loop m -> (forall n x, runs (k n x) (kk n x)) ->
  runs (timed E loop k) (wbind (wtimed m) (fun '(n, x) => kk n x)).
Proof.
  intros Hl Hk s. unfold timed, wtimed, wbind, wnow. cbn [grun]. unfold now.
  rewrite Hl. set (s1 := set_w _ s). destruct (m s1) as [[s2 l2] [n|e]]; cbn [resume wend app]; [|reflexivity].
  cbn [grun]. unfold now. rewrite (Hk _ _ _). unfold wret.
  rewrite !app_nil_r. destruct (kk n _ _) as [[s3 l3] [[]|e]]; reflexivity.
Qed.

(** *** the summary *)
Definition kind_items (ts : Z) (kv : str * (Z * num)) : list dp :=
  let '(name, (ev, du)) := kv in
  [DP (c_internal C ++ B "flush." ++ name ++ B ".count") (VI ev) ts;
   DP (c_internal C ++ B "flush." ++ name ++ B ".duration") (VF (nmul du thousand)) ts].
Definition type_items (ts : Z) (counts : gmap str Z) (kv : str * num) : list dp :=
  let '(t, du) := kv in
  [DP (c_internal C ++ B "receive." ++ t ++ B ".count") (VI (default 0 (counts !! t))) ts;
   DP (c_internal C ++ B "receive." ++ t ++ B ".duration") (VF (nmul du thousand)) ts].

(** equal up to what the summary changes *)
Definition same_data (s s' : st) : Prop :=
  p_timer s' = p_timer s /\ p_counter s' = p_counter s /\ p_gauge s' = p_gauge s /\ p_meter s' = p_meter s /\
  p_plug s' = p_plug s /\ p_bad s' = p_bad s /\ p_info s' = p_info s.
Lemma same_data_trans s1 s2 s3 : same_data s1 s2 -> same_data s2 s3 -> same_data s1 s3.
Proof. unfold same_data. intros H1 H2. decompose [and] H1. decompose [and] H2. repeat split; congruence. Qed.

Lemma kinds_run (pm : gmap str (Z * num)) ts names : forall n (s : st), Forall (fun k => is_Some (pm !! k)) names ->
  exists s' kvs, vrun (fun name s' => match pm !! name with
                               | Some (ev, du) => summary_kind C ts name ev du s'
                               | None => (s', Ok None)
                               end) names n s = (s', flat_map (kind_items ts) kvs, Ok (n + Z.of_nat (length names))) /\
    kvs = omap (fun k => (fun v => (k, v)) <$> (pm !! k)) names /\
    same_data s s' /\ p_ptime s' = p_ptime s /\ p_btype s' = p_btype s.
Proof.
  induction names as [|k names IH]; intros n s Hf.
  - exists s, []. cbn. rewrite Z.add_0_r. repeat split.
  - inversion Hf as [|? ? [[ev du] Hk] Hf']; subst. cbn [vrun omap list_omap]. rewrite Hk.
    unfold summary_kind at 1. cbn [fmap option_fmap option_map].
    destruct (IH (n + 1) (set_lfd (nadd (p_lfd s) du) s) Hf') as (s' & kvs & H1 & -> & H2 & H3 & H4).
    rewrite H1. eexists s', _. split; [|split; [reflexivity|]].
    + cbn [flat_map kind_items app]. do 2 f_equal. cbn [length]. lia.
    + split; [|auto]. exact H2.
Qed.

Lemma types_run ts ks : forall n (s : st), Forall (fun t => is_Some (p_ptime s !! t)) ks ->
  (forall t, is_Some (p_ptime s !! t) -> is_Some (p_btype s !! t)) ->
  exists s' kvs, vrun (visit' p_ptime (summary_type C ts)) ks n s =
      (s', flat_map (type_items ts (p_btype s)) kvs, Ok (n + Z.of_nat (length ks))) /\
    kvs = omap (fun k => (fun v => (k, v)) <$> (p_ptime s !! k)) ks /\
    same_data s s' /\ p_ptime s' = p_ptime s /\ p_btype s' = p_btype s.
Proof.
  induction ks as [|k ks IH]; intros n s Hf Hb.
  - exists s, []. cbn. rewrite Z.add_0_r. repeat split.
  - inversion Hf as [|? ? [du Hk] Hf']; subst. cbn [vrun omap list_omap]. unfold visit' at 1. rewrite Hk.
    unfold summary_type at 1. destruct (Hb k ltac:(eauto)) as [c Hc]. rewrite Hc. cbn [fmap option_fmap option_map]. cbv beta. rewrite Hc.
    destruct (IH (n + 1) (set_lpd (nadd (p_lpd s) du) s) Hf' Hb) as (s' & kvs & H1 & -> & H2 & H3 & H4).
    rewrite H1. eexists s', _. split; [|split; [reflexivity|]].
    + cbn [flat_map type_items app p_ptime p_btype set_lpd]. rewrite Hc. cbn [default from_option]. do 2 f_equal. cbn [length]. lia.
    + split; [|auto]. exact H2.
Qed.

Lemma omap_keys {V} (m : gmap str V) ks : ks ≡ₚ (map_to_list m).*1 ->
  omap (fun k => (fun v => (k, v)) <$> (m !! k)) ks ≡ₚ map_to_list m.
Proof.
  intros ->. assert (Hmap : forall l : list (str * V), Forall (fun kv => m !! kv.1 = Some kv.2) l ->
      omap (fun k => (fun v => (k, v)) <$> (m !! k)) l.*1 = l).
  { induction 1 as [|[k v] l Ha _ IH]; [reflexivity|]. cbn in *. rewrite Ha. cbn. f_equal. exact IH. }
  rewrite Hmap; [reflexivity|]. apply Forall_forall. intros [k v] Hx. apply elem_of_map_to_list in Hx. exact Hx.
Qed.
Lemma keys_all {V} (m : gmap str V) ks : ks ≡ₚ (map_to_list m).*1 -> Forall (fun k => is_Some (m !! k)) ks.
Proof.
  intros ->. apply Forall_forall. intros k Hk. apply elem_of_list_fmap in Hk. destruct Hk as ([k' v] & -> & Hx).
  apply elem_of_map_to_list in Hx. eauto.
Qed.

Lemma summary_run num_stats (pm : list (str * (Z * num))) ts (s : st) : NoDup pm.*1 ->
  (forall t, is_Some (p_ptime s !! t) -> is_Some (p_btype s !! t)) ->
  exists s' kinds types,
    grun (flush_summary E C num_stats pm ts) s =
      (s', DP (c_internal C ++ B "numStats") (VI num_stats) ts ::
           flat_map (kind_items ts) kinds ++ flat_map (type_items ts (p_btype s)) types, None) /\
    kinds ≡ₚ pm /\ types ≡ₚ map_to_list (p_ptime s) /\
    same_data s s' /\ p_ptime s' = ∅ /\ p_btype s' = ∅.
Proof.
  intros Hnd Hb. unfold flush_summary. cbn [grun].
  set (m := list_to_map pm : gmap str (Z * num)).
  pose proof (keys_perm E m (p_w s)) as Hp. destruct (dict_keys E m (p_w s)) as [names w] eqn:Ek. cbn [fst] in Hp.
  rewrite (grun_giter (fun _ => true) _ (fun s2 : st => p_ptime s2 = p_ptime s2)).
  2:{ reflexivity. }
  2:{ intros k s2 _. destruct (m !! k) as [[ev du]|]; cbn; auto. }
  2:{ reflexivity. }
  destruct (kinds_run m ts names 0 (set_lfd n0 (set_w w s)) (keys_all m names Hp)) as (s1 & kvs & H1 & Hk & Hd1 & Hp1 & Hb1).
  rewrite H1. cbn [resume]. cbn [grun].
  rewrite (gdict_runs E p_ptime (summary_type C ts)).
  2:{ reflexivity. }
  2:{ intros k v s2 _. unfold summary_type. destruct (p_btype s2 !! k); [|exact I]. split; [reflexivity|].
      destruct (p_btype s2 !! k); reflexivity. }
  unfold wdict.
  pose proof (keys_perm E (p_ptime (set_lpd n0 s1)) (p_w (set_lpd n0 s1))) as Hp2.
  destruct (dict_keys E (p_ptime (set_lpd n0 s1)) (p_w (set_lpd n0 s1))) as [tks w2] eqn:Ek2. cbn [fst] in Hp2.
  cbn [p_ptime set_lpd] in Hp2. cbn [p_ptime set_lfd set_w] in Hp1. cbn [p_btype set_lfd set_w] in Hb1.
  destruct (types_run ts tks 0 (set_w w2 (set_lpd n0 s1))) as (s2 & tvs & H2 & Ht & Hd2 & Hp3 & Hb3).
  { cbn [p_ptime set_lpd set_w]. apply keys_all. exact Hp2. }
  { cbn [p_ptime p_btype set_lpd set_w]. rewrite Hp1, Hb1. exact Hb. }
  rewrite H2. cbn [resume]. cbn [grun].
  eexists _, kvs, tvs. split; [|split; [|split; [|split; [|split]]]].
  - cbn [p_btype set_lpd set_w]. rewrite Hb1. rewrite app_nil_r. reflexivity.
  - rewrite Hk, omap_keys by exact Hp. apply map_to_list_to_map. exact Hnd.
  - cbn [p_ptime set_lpd set_w] in Ht. rewrite Hp1 in Ht, Hp2. rewrite Ht. apply omap_keys. exact Hp2.
  - eapply same_data_trans; [|eapply same_data_trans; [exact Hd1|]].
    + repeat split.
    + eapply same_data_trans; [|eapply same_data_trans; [exact Hd2|]]; repeat split.
  - reflexivity.
  - reflexivity.
Qed.

(** *** all stages *)
Context (mc mt : Z -> Z -> W st Z) (mg mm mp : Z -> W st Z).
Context (Hc : forall i ts, loop_runs (c_flush_counter C i ts) (mc i ts))
        (Ht : forall p ts, loop_runs (c_flush_timer C p ts) (mt p ts))
        (Hg : forall ts, loop_runs (c_flush_gauge C ts) (mg ts))
        (Hm : forall ts, loop_runs (c_flush_meter C ts) (mm ts))
        (Hp : forall ts, loop_runs (flush_plugins E ts) (mp ts)).
Definition wsummary num_stats pm ts : W st unit := fun s =>
  match grun (flush_summary E C num_stats pm ts) s with
  | (s', l, None) => (s', l, Ok tt)
  | (s', l, Some e) => (s', l, Exn e)
  end.
Lemma wsummary_runs num_stats pm ts : runs (flush_summary E C num_stats pm ts) (wsummary num_stats pm ts).
Proof. intros s. unfold wsummary. destruct (grun _ s) as [[s' l] [e|]]; reflexivity. Qed.

Definition wflush (interval_ms percent : Z) : W st unit :=
  wbind wnow (fun t =>
  match ntrunc t with
  | Exn e => fun s => (s, [], Exn e)
  | Ok ts =>
      wbind (wtimed (mc (interval_ms / 1000) ts)) (fun '(nc, dc) =>
      wbind (wtimed (mt percent ts)) (fun '(nt, dt) =>
      wbind (wtimed (mg ts)) (fun '(ng, dg) =>
      wbind (wtimed (mm ts)) (fun '(nm, dm) =>
      wbind (wtimed (mp ts)) (fun '(np, dpl) =>
        wsummary (nc + nt + ng + nm + np)
             [(B "counter", (nc, dc)); (B "timer", (nt, dt)); (B "gauge", (ng, dg));
              (B "meter", (nm, dm)); (B "plugin", (np, dpl))] ts)))))
  end).
Lemma flush_runs interval_ms percent : runs (flush E C interval_ms percent) (wflush interval_ms percent).
Proof using Hc Ht Hg Hm Hp.
  intros s. unfold flush, wflush. cbn [grun]. unfold wbind at 1, wnow at 1, now.
  set (s1 := set_w _ s). destruct (ntrunc (e_clock E (w_clk (p_w s)))) as [ts|e]; [|reflexivity].
  rewrite (timed_runs _ (mc (interval_ms / 1000) ts) _ (fun nc dc =>
      wbind (wtimed (mt percent ts)) (fun '(nt, dt) =>
      wbind (wtimed (mg ts)) (fun '(ng, dg) =>
      wbind (wtimed (mm ts)) (fun '(nm, dm) =>
      wbind (wtimed (mp ts)) (fun '(np, dpl) =>
        wsummary (nc + nt + ng + nm + np)
             [(B "counter", (nc, dc)); (B "timer", (nt, dt)); (B "gauge", (ng, dg));
              (B "meter", (nm, dm)); (B "plugin", (np, dpl))] ts)))))); [|apply Hc|].
  2:{ intros nc dc. apply timed_runs with (kk := fun nt dt =>
      wbind (wtimed (mg ts)) (fun '(ng, dg) =>
      wbind (wtimed (mm ts)) (fun '(nm, dm) =>
      wbind (wtimed (mp ts)) (fun '(np, dpl) =>
        wsummary (nc + nt + ng + nm + np)
             [(B "counter", (nc, dc)); (B "timer", (nt, dt)); (B "gauge", (ng, dg));
              (B "meter", (nm, dm)); (B "plugin", (np, dpl))] ts)))); [apply Ht|].
      intros nt dt. apply timed_runs with (kk := fun ng dg =>
      wbind (wtimed (mm ts)) (fun '(nm, dm) =>
      wbind (wtimed (mp ts)) (fun '(np, dpl) =>
        wsummary (nc + nt + ng + nm + np)
             [(B "counter", (nc, dc)); (B "timer", (nt, dt)); (B "gauge", (ng, dg));
              (B "meter", (nm, dm)); (B "plugin", (np, dpl))] ts))); [apply Hg|].
      intros ng dg. apply timed_runs with (kk := fun nm dm =>
      wbind (wtimed (mp ts)) (fun '(np, dpl) =>
        wsummary (nc + nt + ng + nm + np)
             [(B "counter", (nc, dc)); (B "timer", (nt, dt)); (B "gauge", (ng, dg));
              (B "meter", (nm, dm)); (B "plugin", (np, dpl))] ts)); [apply Hm|].
      intros nm dm. apply timed_runs with (kk := fun np dpl =>
        wsummary (nc + nt + ng + nm + np)
             [(B "counter", (nc, dc)); (B "timer", (nt, dt)); (B "gauge", (ng, dg));
              (B "meter", (nm, dm)); (B "plugin", (np, dpl))] ts); [apply Hp|].
      intros np dpl. apply wsummary_runs. }
  destruct (wbind _ _ s1) as [[s2 l2] [[]|e]]; reflexivity.
Qed.

(** inversion *)
Lemma wbind_ok {A D} (m : W st A) (k : A -> W st D) s s' l d : wbind m k s = (s', l, Ok d) ->
  exists s1 l1 a l2, m s = (s1, l1, Ok a) /\ k a s1 = (s', l2, Ok d) /\ l = l1 ++ l2.
Proof.
  unfold wbind. destruct (m s) as [[s1 l1] [a|e]]; [|discriminate].
  destruct (k a s1) as [[s2 l2] r] eqn:Ek. intros [= <- <- ->]. eauto 8.
Qed.
Lemma wtimed_inv m s s' l r : wtimed m s = (s', l, r) ->
  exists w s1 r1, m (set_w w s) = (s1, l, r1) /\
    match r1 with
    | Ok n => (exists w', s' = set_w w' s1) /\ exists x, r = Ok (n, x)
    | Exn e => s' = s1 /\ r = Exn e
    end.
Proof.
  unfold wtimed, wbind, wnow, now, wret. set (w := World _ _ _ _).
  destruct (m (set_w w s)) as [[s1 l1] [n|e]] eqn:Em; intros [= <- <- <-].
  - eexists w, s1, (Ok n). rewrite !app_nil_r. split; [exact Em|]. eauto.
  - eexists w, s1, (Exn e). split; [exact Em|]. auto.
Qed.
End stages.
