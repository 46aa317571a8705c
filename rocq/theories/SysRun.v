(** Interleavings of receiving and flushing once more: for any invariant and any quantity
    that flushing only moves about, and for any relation that flushing keeps to. *)
From Verif Require Import Base StrFacts Num Env Stats Glob Metrics Gen GenFacts Processor
  LineSpec LineFacts FloatFacts ProcFacts ProcSpec ReceiveFacts Sched SchedFacts StepFacts.

Section run.
Context `{NN : Num} (E : env) (plugins : list factory).
Notation C := (mp_cls E plugins).
Context {A : Type} (op : A -> A -> A) (e0 : A).
Context (op_comm : forall a b, op a b = op b a)
        (op_assoc : forall a b c, op a (op b c) = op (op a b) c)
        (op_e0 : forall a, op e0 a = a).
Context (I : mst -> Prop) (Q : dp -> Prop) (pot : mst -> A) (val : dp -> A) (inc : str -> A).
Context (fine : str -> Prop) (can : event -> Prop).
Notation ok := (okG (S := mst) op e0 I Q pot val).
Notation owd := (owed (S := mst) op e0 val).
Notation tot := (total op e0 val).
Notation sum := (sumA op e0).
Context (Hflush : forall i p, can (Start i p) -> ok (flush E C i p) /\ owd (flush E C i p) = e0).
Context (Hrecv : forall m s, fine m -> I s ->
  I (receive E plugins m s) /\ pot (receive E plugins m s) = op (pot s) (inc m)).

Definition bal (y : sys) : A :=
  op (pot (y_st y)) (op (sum owd (y_live y)) (op (sum owd (y_gone y)) (tot (y_out y)))).
Definition run_ok (y : sys) : Prop := I (y_st y) /\ Forall ok (y_live y) /\ Forall Q (y_out y).

Lemma quiet_ok y e : can e -> (forall m, e <> Recv m) -> run_ok y ->
  run_ok (sys_step E plugins y e) /\ bal (sys_step E plugins y e) = bal y.
Proof using op_comm op_assoc op_e0 Hflush.
  assert (op_e0r : forall a, op a e0 = a) by (intros; rewrite op_comm; apply op_e0).
  intros Hc Hr (Hi & Hl & Ho). destruct e as [m|i p|i|i]; cbn [sys_step].
  - destruct (Hr m eq_refl).
  - destruct (Hflush i p Hc) as [G1 G2]. split.
    + split; [exact Hi|split; [|exact Ho]]. cbn [y_live]. apply Forall_app. split; [exact Hl|].
      constructor; [exact G1|constructor].
    + unfold bal. cbn [y_st y_live y_gone y_out]. rewrite (sumA_app op e0 op_assoc op_e0). cbn [sumA fold_right].
      rewrite G2, !op_e0r. reflexivity.
  - destruct (y_live y !! i) as [g|] eqn:Hg; [|split; [split; auto|reflexivity]].
    assert (Hok : ok g) by (rewrite Forall_lookup in Hl; eapply Hl; exact Hg).
    destruct (gnext g (y_st y)) as [s' o] eqn:Hn.
    destruct (gnext_ok op e0 op_comm op_assoc op_e0 I Q pot val g (y_st y) s' o Hi Hok Hn) as (H1 & H2 & H3).
    destruct o as [d g'| |x]; cbn [out_owed out_ok] in *.
    + destruct H3 as [H3 H4]. split.
      * split; [exact H1|]. split; cbn [y_live y_out].
        -- apply Forall_insert; auto.
        -- apply Forall_app. split; [auto|]. constructor; auto.
      * unfold bal. cbn [y_st y_live y_gone y_out].
        assert (Ht : tot (y_out y ++ [d]) = op (tot (y_out y)) (val d)).
        { pose proof (sumA_app op e0 op_assoc op_e0 val (y_out y) [d]) as Hx. unfold sumA in Hx. unfold total. rewrite Hx.
          cbn [fold_right]. rewrite op_e0r. reflexivity. }
        rewrite Ht. rewrite (sumA_delete op e0 op_comm op_assoc owd (y_live y) i g Hg).
        assert (Hy : <[i := g']> (y_live y) !! i = Some g').
        { apply list_lookup_insert. eapply lookup_lt_Some. exact Hg. }
        rewrite (sumA_delete op e0 op_comm op_assoc owd _ i g' Hy).
        assert (Hd : delete i (<[i := g']> (y_live y)) = delete i (y_live y)).
        { generalize (y_live y). clear. intros l. revert i. induction l as [|z l IH]; intros [|i]; cbn; auto. f_equal. apply IH. }
        rewrite Hd. rewrite !op_assoc. rewrite H2. rewrite !op_assoc.
        rewrite (op_comm _ (val d)). rewrite !op_assoc. f_equal. f_equal. f_equal. f_equal. apply op_comm.
    + split.
      * split; [exact H1|]. split; [|exact Ho]. cbn [y_live]. apply Forall_delete. exact Hl.
      * unfold bal. cbn [y_st y_live y_gone y_out].
        rewrite (sumA_delete op e0 op_comm op_assoc owd (y_live y) i g Hg). rewrite !op_assoc. rewrite H2, op_e0r. reflexivity.
    + split.
      * split; [exact H1|]. split; [|exact Ho]. cbn [y_live]. apply Forall_delete. exact Hl.
      * unfold bal. cbn [y_st y_live y_gone y_out].
        rewrite (sumA_delete op e0 op_comm op_assoc owd (y_live y) i g Hg). rewrite !op_assoc. rewrite H2, op_e0r. reflexivity.
  - destruct (y_live y !! i) as [g|] eqn:Hg; [|split; [split; auto|reflexivity]].
    split.
    + split; [exact Hi|]. split; [|exact Ho]. cbn [y_live]. apply Forall_delete. exact Hl.
    + unfold bal. cbn [y_st y_live y_gone y_out]. rewrite (sumA_app op e0 op_assoc op_e0).
      cbn [sumA fold_right]. rewrite op_e0r. rewrite (sumA_delete op e0 op_comm op_assoc owd (y_live y) i g Hg).
      rewrite !op_assoc. f_equal. rewrite <- !op_assoc. f_equal. rewrite (op_comm (owd g)). rewrite !op_assoc. reflexivity.
Qed.

Lemma moved_ok es : forall y, Forall can es -> Forall fine (lines es) -> run_ok y ->
  run_ok (sys_run E plugins es y) /\ bal (sys_run E plugins es y) = op (bal y) (sum inc (lines es)).
Proof using op_comm op_assoc op_e0 Hflush Hrecv.
  assert (op_e0r : forall a, op a e0 = a) by (intros; rewrite op_comm; apply op_e0).
  induction es as [|e es IH]; intros y Hc Hf Hy; cbn [sys_run fold_left].
  - split; [exact Hy|]. cbn. rewrite op_e0r. reflexivity.
  - apply Forall_cons in Hc as [Hc1 Hc2]. unfold lines in Hf. cbn [flat_map] in Hf. apply Forall_app in Hf as [Hf1 Hf2].
    assert (Hs : run_ok (sys_step E plugins y e) /\ bal (sys_step E plugins y e) = op (bal y) (match e with Recv m => inc m | _ => e0 end)).
    { destruct e as [m|i p|i|i]; [|rewrite op_e0r; apply quiet_ok; [exact Hc1|discriminate|exact Hy]..].
      apply Forall_cons in Hf1 as [Hf1 _]. destruct Hy as (Hi & Hl & Ho). destruct (Hrecv m (y_st y) Hf1 Hi) as [R1 R2]. cbn [sys_step].
      split; [split; [exact R1|split; assumption]|].
      unfold bal. cbn [y_st y_live y_gone y_out]. rewrite R2.
      rewrite <- !op_assoc. f_equal. rewrite (op_comm (inc m)), <- !op_assoc. reflexivity. }
    destruct Hs as [H1 H2]. destruct (IH _ Hc2 Hf2 H1) as [H3 H4].
    split; [exact H3|]. unfold sys_run in H4. rewrite H4, H2. unfold lines. cbn [flat_map].
    rewrite (sumA_app op e0 op_assoc op_e0). destruct e; cbn [sumA fold_right]; rewrite ?op_e0r, ?op_e0; try reflexivity; rewrite <- ?op_assoc; reflexivity.
Qed.
End run.

Section keeps.
Context `{NN : Num} (E : env) (plugins : list factory).
Notation C := (mp_cls E plugins).
Context (R : mst -> mst -> Prop) (Rrefl : forall s, R s s) (Rtrans : forall a b c, R a b -> R b c -> R a c).
Context (P : list str -> mst -> Prop) (fine : str -> Prop).
Context (Hflush : forall i p, stepG R (flush E C i p)).
Context (Hrecv : forall h m s, fine m -> P h s -> P (h ++ [m]) (receive E plugins m s)).
Context (Hquiet : forall h s s', P h s -> R s s' -> P h s').

Lemma kept_run es : P [] mp_init -> Forall fine (lines es) -> P (lines es) (y_st (sys_run E plugins es sys_init)).
Proof using Rrefl Rtrans Hflush Hrecv Hquiet.
  intros H0 Hf.
  assert (Hgen : forall es y h, Forall fine (lines es) -> P h (y_st y) -> Forall (stepG R) (y_live y) ->
    P (h ++ lines es) (y_st (sys_run E plugins es y))).
  { clear es Hf. induction es as [|e es IH]; intros y h Hf Hp Hl; cbn [sys_run fold_left].
    - cbn. rewrite app_nil_r. exact Hp.
    - unfold lines in Hf. cbn [flat_map] in Hf. apply Forall_app in Hf as [Hf1 Hf2].
      assert (Hstep : P (h ++ lines [e]) (y_st (sys_step E plugins y e)) /\ Forall (stepG R) (y_live (sys_step E plugins y e))).
      { unfold lines. destruct e as [m|i p|i|i]; cbn [sys_step flat_map app]; rewrite ?app_nil_r.
        - apply Forall_cons in Hf1 as [Hf1 _]. split; [apply Hrecv; assumption|exact Hl].
        - split; [exact Hp|]. cbn [y_live]. apply Forall_app. split; [exact Hl|]. constructor; [apply Hflush|constructor].
        - destruct (y_live y !! i) as [g|] eqn:Hg; [|auto].
          assert (Hgs : stepG R g) by (rewrite Forall_lookup in Hl; eapply Hl; exact Hg).
          destruct (gnext g (y_st y)) as [s' o] eqn:Hn.
          destruct (gnext_step R Rrefl Rtrans g _ _ _ Hgs Hn) as [H1 H2].
          destruct o as [d g'| |x]; cbn [y_st y_live].
          + split; [eapply Hquiet; eassumption|]. apply Forall_insert; eauto.
          + split; [eapply Hquiet; eassumption|]. apply Forall_delete. exact Hl.
          + split; [eapply Hquiet; eassumption|]. apply Forall_delete. exact Hl.
        - destruct (y_live y !! i) as [g|] eqn:Hg; [|auto]. cbn [y_st y_live]. split; [exact Hp|]. apply Forall_delete. exact Hl. }
      destruct Hstep as [S1 S2]. specialize (IH _ _ Hf2 S1 S2).
      unfold lines in *. cbn [flat_map app] in *. rewrite app_nil_r in IH. rewrite <- app_assoc in IH. exact IH. }
  apply (Hgen es sys_init [] Hf); [exact H0|constructor].
Qed.
End keeps.
