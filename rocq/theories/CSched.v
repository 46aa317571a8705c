(** The schedules of Sched.v for any processor: lines arrive and any number of
    flushes are started, resumed and abandoned in any order
    (service.py:218-241). *)
From Verif Require Import Base Num Env Metrics Gen Processor Sched StepFacts.

Section csched.
Context `{NN : Num} {S : Type}.
Context (recv : str -> S -> S) (fl : Z -> Z -> gen S).

Record gsys := GSys { g_st : S; g_live : list (gen S); g_out : list dp; g_exn : list exn }.
Definition gsys_step (y : gsys) (e : event) : gsys :=
  match e with
  | Recv m => GSys (recv m (g_st y)) (g_live y) (g_out y) (g_exn y)
  | Start i p => GSys (g_st y) (g_live y ++ [fl i p]) (g_out y) (g_exn y)
  | Resume i =>
      match g_live y !! i with
      | None => y
      | Some g =>
          match gnext g (g_st y) with
          | (s', Yielded d g') => GSys s' (<[i := g']> (g_live y)) (g_out y ++ [d]) (g_exn y)
          | (s', Finished) => GSys s' (delete i (g_live y)) (g_out y) (g_exn y)
          | (s', Raised x) => GSys s' (delete i (g_live y)) (g_out y) (g_exn y ++ [x])
          end
      end
  | Drop i => GSys (g_st y) (delete i (g_live y)) (g_out y) (g_exn y)
  end.
Definition gsys_run (es : list event) (y : gsys) : gsys := fold_left gsys_step es y.
Definition gsys_init (s : S) : gsys := GSys s [] [] [].
Definition reached (s0 : S) (es : list event) : S := g_st (gsys_run es (gsys_init s0)).

(** a relation between the lines received so far and the state *)
Lemma gsys_history (R : S -> S -> Prop) (P : list str -> S -> Prop) s0 :
  (forall i p, stepG R (fl i p)) -> (forall s, R s s) -> (forall a b c, R a b -> R b c -> R a c) ->
  P [] s0 -> (forall ls m s, P ls s -> P (ls ++ [m]) (recv m s)) ->
  (forall ls s s', P ls s -> R s s' -> P ls s') ->
  forall es, P (lines es) (reached s0 es).
Proof.
  intros Hfl Rrefl Rtrans H0 Hr Hf es. unfold reached.
  assert (Hgen : forall es y ls, P ls (g_st y) -> Forall (stepG R) (g_live y) ->
    P (ls ++ lines es) (g_st (gsys_run es y))).
  { clear es. induction es as [|e es IH]; intros y ls Hp Hl; cbn [gsys_run fold_left].
    - cbn. rewrite app_nil_r. exact Hp.
    - assert (Hstep : P (ls ++ lines [e]) (g_st (gsys_step y e)) /\ Forall (stepG R) (g_live (gsys_step y e))).
      { unfold lines. destruct e as [m|i p|i|i]; cbn [gsys_step flat_map app]; rewrite ?app_nil_r.
        - split; [apply Hr; exact Hp|exact Hl].
        - split; [exact Hp|]. cbn [g_live]. apply Forall_app. split; [exact Hl|]. constructor; [apply Hfl|constructor].
        - destruct (g_live y !! i) as [g|] eqn:Hg; [|auto].
          assert (Hgs : stepG R g) by (rewrite Forall_lookup in Hl; eapply Hl; exact Hg).
          destruct (gnext g (g_st y)) as [s' o] eqn:Hn.
          destruct (gnext_step R Rrefl Rtrans g (g_st y) s' o Hgs Hn) as [HR Hg']. destruct o as [d g'| |x]; cbn [g_st g_live].
          + split; [eapply Hf; eauto|]. apply Forall_insert; [exact Hl|]. eapply Hg'. reflexivity.
          + split; [eapply Hf; eauto|]. apply Forall_delete. exact Hl.
          + split; [eapply Hf; eauto|]. apply Forall_delete. exact Hl.
        - split; [exact Hp|]. cbn [g_live]. apply Forall_delete. exact Hl. }
      destruct Hstep as [H1 H2]. change (lines (e :: es)) with (lines ([e] ++ es)).
      assert (Hla : lines ([e] ++ es) = lines [e] ++ lines es) by (unfold lines; apply flat_map_app). rewrite Hla, app_assoc.
      apply IH; assumption. }
  apply (Hgen es (gsys_init s0) []); [exact H0|constructor].
Qed.
Lemma lines_snoc es m : lines (es ++ [Recv m]) = lines es ++ [m].
Proof. unfold lines. rewrite flat_map_app. reflexivity. Qed.
Lemma reached_recv s0 es m : reached s0 (es ++ [Recv m]) = recv m (reached s0 es).
Proof. unfold reached, gsys_run. rewrite fold_left_app. reflexivity. Qed.
End csched.

(** ** Invariants and emitted items, whatever the class *)
Section safe.
Context `{NN : Num} {S : Type} (I : S -> Prop) (Q : dp -> Prop).
Fixpoint safeG (g : gen S) : Prop :=
  match g with
  | GRet | GRaise _ => True
  | GAct f => forall s, I s -> I (fst (f s)) /\ safeG (snd (f s))
  | GEmit ms k => Forall Q ms /\ safeG k
  end.
Lemma gnext_safe g : forall s s' o, I s -> safeG g -> gnext g s = (s', o) ->
  I s' /\ match o with Yielded d g' => Q d /\ safeG g' | _ => True end.
Proof.
  induction g as [|e|f IH|ms k IH] using gen_ind'; intros s s' o Hi Hg H; cbn [gnext] in H.
  - injection H as <- <-. auto.
  - injection H as <- <-. auto.
  - cbn [safeG] in Hg. destruct (Hg s Hi) as [H1 H2]. specialize (IH s). destruct (f s) as [s1 g1]. cbn [fst snd] in *.
    exact (IH s1 s' o H1 H2 H).
  - cbn [safeG] in Hg. destruct Hg as [Hq Hk]. destruct ms as [|d ms]; [exact (IH s s' o Hi Hk H)|].
    inversion Hq; subst. injection H as <- <-. split; [exact Hi|]. split; [assumption|]. split; assumption.
Qed.
Definition visit_safe {X} (visit : X -> S -> S * res (option (list dp * (S -> S * res unit)))) : Prop :=
  forall x s, I s -> match visit x s with
    | (s', Ok (Some (ms, post))) => I s' /\ Forall Q ms /\ forall s2, I s2 -> I (fst (post s2))
    | (s', _) => I s'
    end.
Lemma giter_safe {X} (xs : list X) u visit k : visit_safe visit -> (forall n, safeG (k n)) ->
  forall n, safeG (giter xs u visit n k).
Proof.
  intros Hv Hk. induction xs as [|x xs IH]; intros n; cbn [giter safeG]; intros s Hs.
  - destruct (u s); cbn; auto.
  - destruct (negb (u s)); [cbn; auto|]. specialize (Hv x s Hs).
    destruct (visit x s) as [s' [[[ms post]|]|e]]; cbn [fst snd safeG].
    + destruct Hv as (H1 & H2 & H3). split; [exact H1|]. split; [exact H2|]. intros s2 Hs2. specialize (H3 s2 Hs2).
      destruct (post s2) as [s3 [[]|e]]; cbn [fst snd safeG] in *; auto.
    + auto.
    + auto.
Qed.

Context (recv : str -> S -> S) (fl : Z -> Z -> gen S).
Lemma gsys_safe s0 es : (forall i p, safeG (fl i p)) -> I s0 -> (forall m s, I s -> I (recv m s)) ->
  I (reached recv fl s0 es) /\ Forall Q (g_out (gsys_run recv fl es (gsys_init s0))).
Proof.
  intros Hfl H0 Hr. unfold reached.
  assert (Hgen : forall es y, I (g_st y) /\ Forall safeG (g_live y) /\ Forall Q (g_out y) ->
    let y' := gsys_run recv fl es y in I (g_st y') /\ Forall safeG (g_live y') /\ Forall Q (g_out y')).
  { clear es. induction es as [|e es IH]; intros y (Hp & Hl & Ho); cbn [gsys_run fold_left]; [auto|].
    apply (IH (gsys_step recv fl y e)). destruct e as [m|i p|i|i]; cbn [gsys_step].
    - split; [apply Hr; exact Hp|auto].
    - split; [exact Hp|]. split; [|exact Ho]. cbn [g_live]. apply Forall_app. split; [exact Hl|]. constructor; [apply Hfl|constructor].
    - destruct (g_live y !! i) as [g|] eqn:Hg; [|auto].
      assert (Hgs : safeG g) by (rewrite Forall_lookup in Hl; eapply Hl; exact Hg).
      destruct (gnext g (g_st y)) as [s' o] eqn:Hn.
      destruct (gnext_safe g (g_st y) s' o Hp Hgs Hn) as [HI Hg']. destruct o as [d g'| |x]; cbn [g_st g_live g_out].
      + destruct Hg' as [Hd Hg']. split; [exact HI|]. split; [apply Forall_insert; assumption|].
        apply Forall_app. split; [exact Ho|]. constructor; [exact Hd|constructor].
      + split; [exact HI|]. split; [apply Forall_delete; exact Hl|exact Ho].
      + split; [exact HI|]. split; [apply Forall_delete; exact Hl|exact Ho].
    - split; [exact Hp|]. split; [|exact Ho]. cbn [g_live]. apply Forall_delete. exact Hl. }
  destruct (Hgen es (gsys_init s0)) as (A1 & _ & A3); [|split; assumption].
  split; [exact H0|]. split; constructor.
Qed.
End safe.

Section flush_safe.
Context `{NN : Num} {TM CM GM : Type} (E : env) (C : @cls NN TM CM GM).
Notation st := (pst TM CM GM).
Context (I : st -> Prop) (Q : dp -> Prop).
Context (Iw : forall s w, I s -> I (set_w w s)) (Ilfd : forall s x, I s -> I (set_lfd x s)) (Ilpd : forall s x, I s -> I (set_lpd x s))
  (Iend : forall s, I s -> I (set_btype ∅ (set_ptime ∅ s))).
Notation safe := (safeG I Q).
Definition loop_safe (loop : (Z -> gen st) -> gen st) : Prop := forall k, (forall n, safe (k n)) -> safe (loop k).

Lemma gdict_safe {V} (d : st -> gmap str V) visit :
  (forall key v s, I s -> d s !! key = Some v ->
     match visit key v s with
     | (s', Ok (Some (ms, post))) => I s' /\ Forall Q ms /\ forall s2, I s2 -> I (fst (post s2))
     | (s', _) => I s'
     end) -> loop_safe (gdict E d visit).
Proof using Iw.
  intros Hv k Hk s Hs. destruct (dict_keys E (d s) (p_w s)) as [ks w]. cbn [fst snd]. split; [apply Iw; exact Hs|].
  apply giter_safe; [|exact Hk]. intros x s1 Hs1. destruct (d s1 !! x) as [v|] eqn:Ev; [|exact Hs1]. apply Hv; assumption.
Qed.
Lemma timed_safe loop k : loop_safe loop -> (forall n x, safe (k n x)) -> safe (timed E loop k).
Proof using Iw.
  intros Hl Hk s Hs. cbn [fst snd now]. split; [apply Iw; exact Hs|]. apply Hl. intros n s1 Hs1. cbn [fst snd now]. split; [apply Iw; exact Hs1|apply Hk].
Qed.
Lemma summary_safe n per ts :
  (forall v, Q (DP (c_internal C ++ B "numStats") v ts)) ->
  (forall name v, name ∈ per.*1 -> Q (DP (c_internal C ++ B "flush." ++ name ++ B ".count") v ts) /\
                  Q (DP (c_internal C ++ B "flush." ++ name ++ B ".duration") v ts)) ->
  (forall t v s, I s -> is_Some (p_ptime s !! t) ->
     Q (DP (c_internal C ++ B "receive." ++ t ++ B ".count") v ts) /\
     Q (DP (c_internal C ++ B "receive." ++ t ++ B ".duration") v ts)) ->
  safe (flush_summary E C n per ts).
Proof using Iw Ilfd Ilpd Iend.
  intros Q1 Q2 Q3. unfold flush_summary. cbn [safeG]. split; [constructor; [apply Q1|constructor]|].
  intros s Hs. destruct (dict_keys E _ (p_w s)) as [names w]. cbn [fst snd]. split; [apply Ilfd, Iw; exact Hs|].
  apply giter_safe.
  - intros name s1 Hs1. destruct (list_to_map per !! name) as [[ev du]|] eqn:El; [|exact Hs1].
    apply elem_of_list_to_map_2 in El.
    assert (Hn : name ∈ per.*1) by (apply elem_of_list_fmap; eexists (_, _); split; [reflexivity|exact El]).
    unfold summary_kind. split; [exact Hs1|]. split.
    + constructor; [apply Q2; exact Hn|]. constructor; [apply Q2; exact Hn|constructor].
    + intros s2 Hs2. apply Ilfd. exact Hs2.
  - intros _ s1 Hs1. cbn [fst snd]. split; [apply Ilpd; exact Hs1|]. apply gdict_safe.
    + intros t du s2 Hs2 Ht. unfold summary_type. destruct (p_btype s2 !! t); [|exact Hs2]. split; [exact Hs2|]. split.
      * destruct (Q3 t (VI z) s2 Hs2 ltac:(eauto)). destruct (Q3 t (VF (nmul du thousand)) s2 Hs2 ltac:(eauto)).
        constructor; [assumption|]. constructor; [assumption|constructor].
      * intros s3 Hs3. destruct (p_btype s3 !! t); cbn [fst]; [apply Ilpd|]; exact Hs3.
    + intros _ s2 Hs2. cbn [fst snd]. split; [apply Iend; exact Hs2|exact Logic.I].
Qed.
Lemma flush_safe i p :
  (forall ts v, Q (DP (c_internal C ++ B "numStats") v ts)) ->
  (forall name v ts, name ∈ [B "counter"; B "timer"; B "gauge"; B "meter"; B "plugin"] ->
     Q (DP (c_internal C ++ B "flush." ++ name ++ B ".count") v ts) /\
     Q (DP (c_internal C ++ B "flush." ++ name ++ B ".duration") v ts)) ->
  (forall t v s ts, I s -> is_Some (p_ptime s !! t) ->
     Q (DP (c_internal C ++ B "receive." ++ t ++ B ".count") v ts) /\
     Q (DP (c_internal C ++ B "receive." ++ t ++ B ".duration") v ts)) ->
  (forall i ts, loop_safe (c_flush_counter C i ts)) -> (forall p ts, loop_safe (c_flush_timer C p ts)) ->
  (forall ts, loop_safe (c_flush_gauge C ts)) -> (forall ts, loop_safe (c_flush_meter C ts)) ->
  (forall ts, loop_safe (flush_plugins E ts)) -> safe (flush E C i p).
Proof using Iw Ilfd Ilpd Iend.
  intros Q1 Q2 Q3 H1 H2 H3 H4 H5 s Hs. unfold now. cbn [fst snd]. split; [apply Iw; exact Hs|].
  destruct (ntrunc _) as [ts|e]; [|exact Logic.I].
  apply timed_safe; [apply H1|intros]. apply timed_safe; [apply H2|intros]. apply timed_safe; [apply H3|intros].
  apply timed_safe; [apply H4|intros]. apply timed_safe; [apply H5|intros].
  apply summary_safe; [intros; apply Q1|intros; apply Q2; assumption|intros; eapply Q3; eassumption].
Qed.
End flush_safe.
