(** What the actions of a generator do to the state, in any interleaving. *)
From Verif Require Import Base StrFacts Num Env Stats Glob Metrics Gen GenFacts Processor
  LineSpec LineFacts FloatFacts ProcFacts ProcSpec ReceiveFacts ReceiveFacts2 ReceiveFacts3 PlugFacts Sched.

Section step.
Context `{NN : Num} {S : Type} (R : S -> S -> Prop).
Context (Rrefl : forall s, R s s) (Rtrans : forall a b c, R a b -> R b c -> R a c).

(** every action changes the state along [R] *)
Fixpoint stepG (g : gen S) : Prop :=
  match g with
  | GRet | GRaise _ => True
  | GAct f => forall s, R s (fst (f s)) /\ stepG (snd (f s))
  | GEmit _ k => stepG k
  end.
Lemma gnext_step g : forall s s' o, stepG g -> gnext g s = (s', o) ->
  R s s' /\ forall d g', o = Yielded d g' -> stepG g'.
Proof using Rrefl Rtrans.
  induction g as [|e|f IH|ms k IH] using gen_ind'; intros s s' o Hg H; cbn [gnext] in H.
  - injection H as <- <-. split; [apply Rrefl|discriminate].
  - injection H as <- <-. split; [apply Rrefl|discriminate].
  - cbn [stepG] in Hg. destruct (Hg s) as [H1 H2]. specialize (IH s). destruct (f s) as [s1 g1]. cbn [fst snd] in *.
    destruct (IH s1 s' o H2 H) as [H3 H4]. split; [eapply Rtrans; eassumption|exact H4].
  - cbn [stepG] in Hg. destruct ms as [|d ms]; [exact (IH s s' o Hg H)|].
    injection H as <- <-. split; [apply Rrefl|]. intros d' g' [= <- <-]. exact Hg.
Qed.

Definition visit_step {X} (visit : X -> S -> S * res (option (list dp * (S -> S * res unit)))) : Prop :=
  forall x s, match visit x s with
              | (s', Ok (Some (_, post))) => R s s' /\ forall s2, R s2 (fst (post s2))
              | (s', _) => R s s'
              end.
Lemma giter_step {X} (xs : list X) u visit k : visit_step visit -> (forall n, stepG (k n)) ->
  forall n, stepG (giter xs u visit n k).
Proof using Rrefl.
  intros Hv Hk. induction xs as [|x xs IH]; intros n; cbn [giter stepG]; intros s.
  - destruct (u s); cbn; auto.
  - destruct (negb (u s)); [cbn; auto|]. specialize (Hv x s).
    destruct (visit x s) as [s' [[[ms post]|]|e]]; cbn [fst snd stepG].
    + destruct Hv as [H1 H2]. split; [exact H1|]. intros s2. specialize (H2 s2).
      destruct (post s2) as [s3 [[]|e]]; cbn [fst snd stepG] in *; auto.
    + auto.
    + auto.
Qed.
End step.

Section flush_step.
Context `{NN : Num} {TM CM GM : Type} (E : env) (C : @cls NN TM CM GM).
Notation st := (pst TM CM GM).
Context (R : st -> st -> Prop).
Context (Rrefl : forall s, R s s).
Context (Rw : forall s w, R s (set_w w s)) (Rlfd : forall s x, R s (set_lfd x s)) (Rlpd : forall s x, R s (set_lpd x s))
  (Rend : forall s, R s (set_btype ∅ (set_ptime ∅ s))).
Context (Rtrans : forall a b c, R a b -> R b c -> R a c).
Notation step := (stepG R).
Definition loop_step (loop : (Z -> gen st) -> gen st) : Prop := forall k, (forall n, step (k n)) -> step (loop k).

Lemma gdict_step {V} (d : st -> gmap str V) visit :
  (forall key v s, d s !! key = Some v ->
     match visit key v s with
     | (s', Ok (Some (_, post))) => R s s' /\ forall s2, R s2 (fst (post s2))
     | (s', _) => R s s'
     end) -> loop_step (gdict E d visit).
Proof using Rrefl Rw.
  intros Hv k Hk s. unfold gdict. destruct (dict_keys E (d s) (p_w s)) as [ks w]. cbn [fst snd]. split; [apply Rw|].
  apply giter_step; [apply Rrefl| |exact Hk]. intros key s1. destruct (d s1 !! key) as [v|] eqn:Ev; [|apply Rrefl].
  apply Hv. exact Ev.
Qed.
Lemma timed_step loop k : loop_step loop -> (forall n x, step (k n x)) -> step (timed E loop k).
Proof using Rw.
  intros Hl Hk s. unfold now. cbn [fst snd]. split; [apply Rw|]. apply Hl. intros n s1. cbn [fst snd]. auto.
Qed.
Lemma summary_step n per ts : step (flush_summary E C n per ts).
Proof using Rrefl Rw Rlfd Rlpd Rend Rtrans.
  cbn [flush_summary stepG]. intros s. set (pm := list_to_map per). destruct (dict_keys E pm (p_w s)) as [names w]. cbn [fst snd].
  split; [eapply Rtrans; [apply (Rw s w)|apply Rlfd]|].
  apply giter_step; [apply Rrefl| |].
  - intros name s1. destruct (pm !! name) as [[ev du]|]; [|apply Rrefl]. cbn [summary_kind]. split; [apply Rrefl|].
    intros s2. cbn [fst]. apply Rlfd.
  - intros _ s1. cbn [fst snd]. split; [apply Rlpd|]. apply gdict_step.
    + intros t du s2 Ht. unfold summary_type. destruct (p_btype s2 !! t); [|apply Rrefl]. split; [apply Rrefl|].
      intros s3. destruct (p_btype s3 !! t); cbn [fst]; [apply Rlpd|apply Rrefl].
    + intros _ s2. cbn [fst snd]. split; [apply Rend|exact I].
Qed.
Lemma flush_step i p :
  (forall i ts, loop_step (c_flush_counter C i ts)) -> (forall p ts, loop_step (c_flush_timer C p ts)) ->
  (forall ts, loop_step (c_flush_gauge C ts)) -> (forall ts, loop_step (c_flush_meter C ts)) ->
  (forall ts, loop_step (flush_plugins E ts)) -> step (flush E C i p).
Proof using Rrefl Rw Rlfd Rlpd Rend Rtrans.
  intros H1 H2 H3 H4 H5 s. unfold now. cbn [fst snd]. split; [apply Rw|].
  destruct (ntrunc _) as [ts|e]; [|exact I].
  apply timed_step; [apply H1|intros]. apply timed_step; [apply H2|intros]. apply timed_step; [apply H3|intros].
  apply timed_step; [apply H4|intros]. apply timed_step; [apply H5|intros]. apply summary_step.
Qed.
End flush_step.

(** ** The compliant processor: what flushing never changes *)
Section untouched.
Context `{NN : Num} (E : env) (plugins : list factory).
Notation C := (mp_cls E plugins).
Context (RM : meter -> meter -> Prop) (RMrefl : forall m, RM m m) (RMtrans : forall a b c, RM a b -> RM b c -> RM a c)
  (RMrep : forall m ts, RM m (fst (meter_report m ts))).

Definition flushed (s s' : mst) : Prop :=
  p_gauge s' = p_gauge s /\ dom (p_counter s') = dom (p_counter s) /\ dom (p_timer s') = dom (p_timer s) /\
  dom (p_plug s') = dom (p_plug s) /\ dom (p_meter s') = dom (p_meter s) /\
  p_bad s' = p_bad s /\ p_info s' = p_info s /\
  forall k m, p_meter s !! k = Some m -> exists m', p_meter s' !! k = Some m' /\ RM m m'.

Lemma flushed_refl s : flushed s s.
Proof using RMrefl. unfold flushed. repeat split; eauto. Qed.
Lemma flushed_trans a b c : flushed a b -> flushed b c -> flushed a c.
Proof using RMtrans.
  intros (A1 & A2 & A3 & A4 & A5 & A6 & A7 & A8) (B1 & B2 & B3 & B4 & B5 & B6 & B7 & B8). unfold flushed. repeat split; try congruence.
  intros k m Hm. destruct (A8 k m Hm) as (m1 & H1 & R1). destruct (B8 k m1 H1) as (m2 & H2 & R2). eauto.
Qed.
Lemma dom_same {V} (m : gmap str V) k v x : m !! k = Some v -> dom (<[k := x]> m) = dom m.
Proof. intros H. apply dom_insert_lookup_L. eauto. Qed.

Ltac fl := unfold flushed; cbn; repeat split; eauto.
Lemma mp_flush_step i p : stepG flushed (flush E C i p).
Proof using RMrefl RMtrans RMrep.
  apply flush_step; try (intros; fl; fail); try (apply flushed_refl); try (exact flushed_trans).
  - intros i' ts. apply gdict_step; [apply flushed_refl|intros; fl|].
    intros key v s Hv. destruct (i' =? 0); cbn [fst].
    + fl. eapply dom_same; eauto.
    + split; [fl; eapply dom_same; eauto|]. intros. apply flushed_refl.
  - intros p' ts. apply gdict_step; [apply flushed_refl|intros; fl|].
    intros key v s Hv. destruct v as [|x v]; [apply flushed_refl|].
    assert (Hx : flushed s (set_timer (<[key := []]> (p_timer s)) s)) by (fl; eapply dom_same; eauto).
    destruct (timer_stats p' (x :: v)) as [[[[[a b] c] d] e]|e]; [|exact Hx].
    split; [exact Hx|]. intros. apply flushed_refl.
  - intros ts k Hk s. cbn [fst snd]. split; [apply flushed_refl|]. apply giter_step; [apply flushed_refl| |exact Hk].
    intros [v key] s1. split; [apply flushed_refl|]. intros. apply flushed_refl.
  - intros ts. apply gdict_step; [apply flushed_refl|intros; fl|].
    intros key m s Hm. pose proof (RMrep m ts) as HR. destruct (meter_report m ts) as [m' r]. cbn [fst] in HR.
    assert (Hx : flushed s (set_meter (<[key := m']> (p_meter s)) s)).
    { fl; [eapply dom_same; eauto|]. intros k m0 Hk. destruct (decide (key = k)) as [->|Hne].
      - rewrite lookup_insert. rewrite Hm in Hk. injection Hk as <-. eauto.
      - rewrite lookup_insert_ne by auto. eauto. }
    destruct r as [ms|e]; [|exact Hx]. split; [exact Hx|]. intros. apply flushed_refl.
  - intros ts. apply gdict_step; [apply flushed_refl|intros; fl|].
    intros key q s Hq. destruct (plug_flush E q ts (p_w s)) as [[q' r] w].
    assert (Hx : flushed s (set_plug (<[key := q']> (p_plug s)) (set_w w s))) by (fl; eapply dom_same; eauto).
    destruct r as [ms|e]; [|exact Hx]. split; [exact Hx|]. intros. apply flushed_refl.
Qed.

(** a relation between the lines received so far and the state *)
Lemma sys_history (P : list str -> mst -> Prop) :
  P [] mp_init -> (forall ls m s, P ls s -> P (ls ++ [m]) (receive E plugins m s)) ->
  (forall ls s s', P ls s -> flushed s s' -> P ls s') ->
  forall es, P (lines es) (y_st (sys_run E plugins es sys_init)).
Proof using RMrefl RMtrans RMrep.
  intros H0 Hr Hf es.
  assert (Hgen : forall es y ls, P ls (y_st y) -> Forall (stepG flushed) (y_live y) ->
    P (ls ++ lines es) (y_st (sys_run E plugins es y))).
  { clear es. induction es as [|e es IH]; intros y ls Hp Hl; cbn [sys_run fold_left].
    - cbn. rewrite app_nil_r. exact Hp.
    - assert (Hstep : P (ls ++ lines [e]) (y_st (sys_step E plugins y e)) /\
                      Forall (stepG flushed) (y_live (sys_step E plugins y e))).
      { unfold lines. destruct e as [m|i p|i|i]; cbn [sys_step flat_map app]; rewrite ?app_nil_r.
        - split; [apply Hr; exact Hp|exact Hl].
        - split; [exact Hp|]. cbn [y_live]. apply Forall_app. split; [exact Hl|]. constructor; [apply mp_flush_step|constructor].
        - destruct (y_live y !! i) as [g|] eqn:Hg; [|auto].
          assert (Hgs : stepG flushed g) by (rewrite Forall_lookup in Hl; eapply Hl; exact Hg).
          destruct (gnext g (y_st y)) as [s' o] eqn:Hn.
          destruct (gnext_step flushed flushed_refl flushed_trans g _ _ _ Hgs Hn) as [H1 H2].
          destruct o as [d g'| |x]; cbn [y_st y_live].
          + split; [eapply Hf; eassumption|]. apply Forall_insert; eauto.
          + split; [eapply Hf; eassumption|]. apply Forall_delete. exact Hl.
          + split; [eapply Hf; eassumption|]. apply Forall_delete. exact Hl.
        - destruct (y_live y !! i) as [g|] eqn:Hg; [|auto]. cbn [y_st y_live]. split; [exact Hp|]. apply Forall_delete. exact Hl. }
      destruct Hstep as [S1 S2]. specialize (IH _ _ S1 S2).
      unfold lines in *. cbn [flat_map app] in *. rewrite app_nil_r in IH. rewrite <- app_assoc in IH. exact IH. }
  apply (Hgen es sys_init []); [exact H0|constructor].
Qed.
End untouched.
