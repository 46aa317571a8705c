(** When an undisturbed flush of the compliant processor raises. *)
From Verif Require Import Base StrFacts Num Env Stats Glob Metrics Gen GenFacts Processor
  LineSpec LineFacts FloatFacts ProcFacts ProcSpec ReceiveFacts ReceiveFacts2 ReceiveFacts3 PlugFacts
  Sched FlushInv FlushOk SchedFacts FlushRun FlushStages FlushComp.

Section fail.
Context `{NN : Num} (E : env) (plugins : list factory).
Notation C := (mp_cls E plugins).

Lemma wbind_exn {S A D} (m : W S A) (k : A -> W S D) s s' l e : wbind m k s = (s', l, Exn e) ->
  m s = (s', l, Exn e) \/
  exists s1 l1 a l2, m s = (s1, l1, Ok a) /\ k a s1 = (s', l2, Exn e) /\ l = l1 ++ l2.
Proof.
  unfold wbind. destruct (m s) as [[s1 l1] [a|e1]].
  - destruct (k a s1) as [[s2 l2] r] eqn:Ek. intros [= <- <- ->]. right. eauto 8.
  - intros [= <- <- <-]. left. reflexivity.
Qed.

Lemma stage_pure_fail {V} (L : lens (list num) num (list (num * str)) V) g s s' l e :
  wtimed E (wlens E L (pure g)) s = (s', l, Exn e) ->
  exists k v, lget L s !! k = Some v /\ snd (g k v) = Exn e.
Proof.
  intros H. apply wtimed_inv in H. destruct H as (w & s1 & r1 & H1 & H2).
  destruct r1 as [n1|e1]; [destruct H2 as [_ [x H2]]; discriminate|]. destruct H2 as [-> [= <-]].
  apply pure_fail in H1. rewrite lgw in H1. exact H1.
Qed.

(** the part of an entry that can fail *)
Definition plug_fails (ts : Z) (p : plug) (e : exn) : Prop :=
  exists w, snd (fst (plug_flush E p ts w)) = Exn e.

Inductive flush_raises (i p : Z) (s : mst) (e : exn) : Prop :=
| fr_clock : ntrunc (e_clock E (w_clk (p_w s))) = Exn e -> flush_raises i p s e
| fr_interval k v : i / 1000 = 0 -> p_counter s !! k = Some v -> e = ZeroDivisionError -> flush_raises i p s e
| fr_timer k ds : p_timer s !! k = Some ds -> ds <> [] -> timer_stats p ds = Exn e -> flush_raises i p s e
| fr_meter ts k m : ntrunc (e_clock E (w_clk (p_w s))) = Ok ts -> p_meter s !! k = Some m ->
    snd (meter_report m ts) = Exn e -> flush_raises i p s e
| fr_plug ts k q : ntrunc (e_clock E (w_clk (p_w s))) = Ok ts -> p_plug s !! k = Some q -> plug_fails ts q e ->
    flush_raises i p s e.

Lemma flush_fail i p (s s' : mst) l e :
  (forall t, is_Some (p_ptime s !! t) -> is_Some (p_btype s !! t)) ->
  grun (flush E C i p) s = (s', l, Some e) -> flush_raises i p s e.
Proof.
  intros Hb H. rewrite (flush_direct E plugins i p s) in H.
  destruct (wflush E C (mc E) (mt E) mgauge (mm E) (mplug E) i p s) as [[s9 l9] r9] eqn:Ew. unfold wend in H.
  destruct r9 as [[]|e9]; [discriminate|]. injection H as -> -> ->.
  unfold wflush in Ew. apply wbind_exn in Ew. destruct Ew as [Ew|(s1 & l1 & t & l2 & H1 & H2 & ->)]; [discriminate|].
  unfold wnow, now in H1. injection H1 as <- <- <-.
  destruct (ntrunc (e_clock E (w_clk (p_w s)))) as [ts|e1] eqn:Ets.
  2:{ injection H2 as <- <- <-. apply fr_clock. exact Ets. }
  set (w0 := World _ _ _ _) in H2.
  apply wbind_exn in H2. destruct H2 as [Hc|(sc & lc & [nc dc] & l3 & Hc & H2 & ->)].
  { apply stage_pure_fail in Hc. destruct Hc as (k & v & Hk & Hv). unfold gc in Hv. cbn [snd] in Hv.
    destruct (i / 1000 =? 0) eqn:Ei; [|discriminate]. injection Hv as <-.
    eapply fr_interval; [lia|exact Hk|reflexivity]. }
  apply stage_pure in Hc. destruct Hc as (ck & w1 & Hck & -> & -> & -> & Hcf).
  apply wbind_exn in H2. destruct H2 as [Ht|(st & lt & [nt dt] & l4 & Ht & H2 & ->)].
  { apply stage_pure_fail in Ht. destruct Ht as (k & v & Hk & Hv). unfold gt in Hv. cbn [snd] in Hv.
    destruct v as [|x v]; [discriminate|]. destruct (timer_stats p (x :: v)) eqn:Et; [discriminate|].
    injection Hv as ->. eapply fr_timer; [exact Hk|discriminate|exact Et]. }
  apply stage_pure in Ht. destruct Ht as (tk & w2 & Htk & -> & -> & -> & Htf).
  apply wbind_exn in H2. destruct H2 as [Hg|(sg & lg & [ng dg] & l5 & Hg & H2 & ->)].
  { apply wtimed_inv in Hg. destruct Hg as (w3 & s3 & r3 & Hg & Hg'). unfold mgauge in Hg. injection Hg as <- <- <-.
    destruct Hg' as [_ [x Hx]]. discriminate. }
  apply wtimed_inv in Hg. destruct Hg as (w3 & s3 & r3 & Hg & Hg').
  unfold mgauge in Hg. injection Hg as <- <- <-. destruct Hg' as [[w4 ->] [x4 [= -> ->]]].
  apply wbind_exn in H2. destruct H2 as [Hm|(sm & lm & [nm dm] & l6 & Hm & H2 & ->)].
  { apply stage_pure_fail in Hm. destruct Hm as (k & v & Hk & Hv). unfold gm in Hv. cbn [snd] in Hv.
    destruct (snd (meter_report v ts)) eqn:Em; [discriminate|]. injection Hv as ->.
    eapply fr_meter; [exact Ets|exact Hk|exact Em]. }
  apply stage_pure in Hm. destruct Hm as (mk & w5 & Hmk & -> & -> & -> & Hmf).
  apply wbind_exn in H2. destruct H2 as [Hp|(sp & lp & [np dpl] & l7 & Hp & H2 & ->)].
  { apply wtimed_inv in Hp. destruct Hp as (w6 & s6 & r6 & Hp & Hp').
    destruct r6 as [n6|e6]; [destruct Hp' as [_ [x Hx]]; discriminate|]. destruct Hp' as [-> [= <-]].
    apply wlens_fail in Hp. destruct Hp as (k & v & wa & v' & wb & Hk & Hv). unfold fp in Hv.
    destruct (plug_flush E v ts wa) as [[q [ms|e7]] w7] eqn:Eq; [discriminate|]. injection Hv as <- -> <-.
    eapply fr_plug; [exact Ets|exact Hk|]. exists wa. rewrite Eq. reflexivity. }
  exfalso.
  apply wtimed_inv in Hp. destruct Hp as (w6 & s6 & r6 & Hp & Hp').
  destruct r6 as [n6|e6]; [|destruct Hp'; discriminate]. destruct Hp' as [[w7 ->] [x7 [= -> ->]]].
  apply wlens_ok in Hp. destruct Hp as (pk & pouts & m' & w8 & Hpk & Hnd & -> & Hdom & Hf2 & -> & ->).
  cbn [Lc Lt Lm Lp lget lput p_counter p_timer p_meter p_plug p_gauge set_w set_counter set_timer set_meter set_plug
       p_w p_ptime p_btype p_bad p_info p_lfd p_lpd] in *.
  unfold wsummary in H2.
  match type of H2 with context [grun (flush_summary E C ?n ?pm ts) ?s0] =>
    destruct (summary_run E C n pm ts s0) as (sz & kinds & types & Hz & Hk & Hty & Hd & Hpt & Hbt) end.
  { apply kinds_nodup. }
  { exact Hb. }
  rewrite Hz in H2. discriminate.
Qed.

(** converse direction: nothing of this kind, no exception *)
Lemma flush_ok i p (s : mst) :
  (forall t, is_Some (p_ptime s !! t) -> is_Some (p_btype s !! t)) ->
  (forall e, ~ flush_raises i p s e) ->
  exists s' l, grun (flush E C i p) s = (s', l, None).
Proof.
  intros Hb Hr. destruct (grun (flush E C i p) s) as [[s' l] [e|]] eqn:Eg; [|eauto].
  exfalso. apply (Hr e). eapply flush_fail; [exact Hb|exact Eg].
Qed.

(** plugins of reachable states never fail *)
Lemma plug_never_fails (s : mst) k q ts e : Inv s -> p_plug s !! k = Some q -> ~ plug_fails ts q e.
Proof.
  intros Hi Hq [w Hw]. apply (inv_p s Hi) in Hq. destruct Hq as [_ Hq]. destruct q as [x|d]; cbn [plug_flush plug_named] in *.
  - destruct (sli_flush E x ts w) as [[x' l] w']. discriminate.
  - destruct Hq as (_ & _ & Hh). unfold dmetric_flush, now in Hw.
    unfold distinct_count in Hw. destruct (ds_hashes (dm_counter d)); [contradiction|discriminate].
Qed.

(** C11 *)
Lemma short_interval i p (s : mst) : 0 <= i < 1000 -> p_counter s <> ∅ ->
  forall ts, ntrunc (e_clock E (w_clk (p_w s))) = Ok ts ->
  exists s' k v, grun (flush E C i p) s = (s', [], Some ZeroDivisionError) /\
    p_counter s !! k = Some v /\ p_counter s' = <[k := n0]> (p_counter s) /\
    p_timer s' = p_timer s /\ p_gauge s' = p_gauge s /\ p_meter s' = p_meter s /\ p_plug s' = p_plug s.
Proof.
  intros Hi Hne ts Ets. rewrite (flush_direct E plugins i p s).
  unfold wflush. unfold wbind at 1, wnow at 1, now at 1. rewrite Ets.
  assert (Hz : i / 1000 = 0) by (apply Z.div_small; exact Hi). rewrite Hz.
  unfold wbind at 1. unfold wtimed at 1, wbind at 1, wnow at 1, now at 1, wbind at 1.
  unfold mc, wlens. cbn [Lc lget lput p_counter p_w set_w].
  pose proof (keys_in E (p_counter s)) as Hin.
  set (w1 := World _ _ _ _). specialize (Hin w1).
  destruct (dict_keys E (p_counter s) w1) as [ks w] eqn:Ek. cbn [fst] in Hin.
  destruct ks as [|k ks].
  { exfalso. apply Hne. apply map_eq. intros k. rewrite lookup_empty.
    destruct (p_counter s !! k) as [v|] eqn:Ev; [|reflexivity].
    assert (Hf : k ∈ @nil str) by (apply Hin; eauto). inversion Hf. }
  destruct (proj1 (Hin k) ltac:(apply elem_of_cons; auto)) as [v Hv].
  cbn [frun]. rewrite Hv. unfold pure, gc. cbn [fst snd]. replace (0 =? 0) with true by reflexivity.
  cbn [wend app]. eexists _, k, v. split; [reflexivity|]. split; [exact Hv|]. cbn. repeat split.
Qed.
End fail.
