(** Every interleaving of metrics handed over by a router and of flushing. *)
From Verif Require Import Base StrFacts Num Env Stats Glob Metrics Gen GenFacts Processor
  LineSpec LineFacts FloatFacts ProcFacts ProcSpec ReceiveFacts ReceiveFacts2 ReceiveFacts3 PlugFacts
  Sched FlushInv FlushOk SchedFacts StepFacts SysRun Router RouterSpec MetricSpec MetricFacts.

Section run.
Context `{NN : Num} (E : env) (plugins : list factory).
Notation C := (mp_cls E plugins).

Inductive mevent := MGive (m : metric) | MFlow (e : event).
Definition mstep (y : sys) (e : mevent) : sys :=
  match e with
  | MGive m => Sys (handle E plugins m (y_st y)) (y_live y) (y_gone y) (y_out y) (y_exn y)
  | MFlow e => sys_step E plugins y e
  end.
Definition mrun (es : list mevent) (y : sys) : sys := fold_left mstep es y.
Definition gives (es : list mevent) : list metric := flat_map (fun e => match e with MGive m => [m] | _ => [] end) es.
Definition proper (e : mevent) : Prop := match e with MFlow (Recv _) => False | MFlow e => sane e | MGive _ => True end.
Lemma mrun_app es es' y : mrun (es ++ es') y = mrun es' (mrun es y).
Proof. apply fold_left_app. Qed.
Lemma gives_app es es' : gives (es ++ es') = gives es ++ gives es'.
Proof. apply flat_map_app. Qed.
Lemma gives_all ms : gives (map MGive ms) = ms.
Proof. unfold gives. induction ms as [|m ms IH]; [reflexivity|]. cbn. rewrite IH. reflexivity. Qed.
Lemma mrun_gives ms : forall y, mrun (map MGive ms) y = Sys (handle_all E plugins ms (y_st y)) (y_live y) (y_gone y) (y_out y) (y_exn y).
Proof.
  induction ms as [|m ms IH]; intros y; cbn [map mrun fold_left]; [destruct y; reflexivity|].
  change (fold_left mstep (map MGive ms)) with (mrun (map MGive ms)). rewrite IH. reflexivity.
Qed.

Section moved.
Context {A : Type} (op : A -> A -> A) (e0 : A).
Context (op_comm : forall a b, op a b = op b a)
        (op_assoc : forall a b c, op a (op b c) = op (op a b) c)
        (op_e0 : forall a, op e0 a = a).
Context (I : mst -> Prop) (Q : dp -> Prop) (pot : mst -> A) (val : dp -> A) (inc : metric -> A).
Context (fine : metric -> Prop).
Context (Hflush : forall i p, sane (Start i p) -> okG (S := mst) op e0 I Q pot val (flush E C i p) /\ owed op e0 val (flush E C i p) = e0).
Context (Hgive : forall m s, fine m -> I s -> I (handle E plugins m s) /\ pot (handle E plugins m s) = op (pot s) (inc m)).
Notation ok := (run_ok op e0 I Q pot val).
Notation bal := (bal op e0 pot val).

Lemma moved es : forall y, Forall proper es -> Forall fine (gives es) -> ok y ->
  ok (mrun es y) /\ bal (mrun es y) = op (bal y) (sumA op e0 inc (gives es)).
Proof using op_comm op_assoc op_e0 Hflush Hgive.
  assert (op_e0r : forall a, op a e0 = a) by (intros; rewrite op_comm; apply op_e0).
  induction es as [|e es IH]; intros y Hc Hf Hy; cbn [mrun fold_left].
  - split; [exact Hy|]. cbn. rewrite op_e0r. reflexivity.
  - apply Forall_cons in Hc as [Hc1 Hc2]. unfold gives in Hf. cbn [flat_map] in Hf. apply Forall_app in Hf as [Hf1 Hf2].
    assert (Hs : ok (mstep y e) /\ bal (mstep y e) = op (bal y) (match e with MGive m => inc m | _ => e0 end)).
    { destruct e as [m|e]; cbn [mstep].
      - apply Forall_cons in Hf1 as [Hf1 _]. destruct Hy as (Hi & Hl & Ho). destruct (Hgive m (y_st y) Hf1 Hi) as [R1 R2].
        split; [split; [exact R1|split; assumption]|].
        unfold SysRun.bal. cbn [y_st y_live y_gone y_out]. rewrite R2.
        rewrite <- !op_assoc. f_equal. rewrite (op_comm (inc m)), <- !op_assoc. reflexivity.
      - rewrite op_e0r. apply (quiet_ok E plugins op e0 op_comm op_assoc op_e0 I Q pot val sane Hflush);
          [destruct e; [contradiction|exact Hc1..]|intros m ->; contradiction|exact Hy]. }
    destruct Hs as [H1 H2]. destruct (IH _ Hc2 Hf2 H1) as [H3 H4].
    split; [exact H3|]. unfold mrun in H4. rewrite H4, H2. unfold gives. cbn [flat_map].
    rewrite (sumA_app op e0 op_assoc op_e0). destruct e; cbn [sumA fold_right]; rewrite ?op_e0r, ?op_e0; try reflexivity; rewrite <- ?op_assoc; reflexivity.
Qed.
End moved.

(** names: in every arithmetic *)
Lemma names_moved (al : str -> Prop) es : (forall s, alpha s -> al s) -> (forall a b, al a -> al b -> al (a ++ b)) ->
  Forall proper es -> Forall (fun m => has_fields m /\ al (snd (fst m))) (gives es) ->
  Forall (QnameG al) (y_out (mrun es sys_init)).
Proof.
  intros A1 A2 Hp Hf.
  destruct (moved (fun _ _ : unit => tt) tt (fun _ _ => eq_refl) (fun _ _ _ => eq_refl)
    (fun a => match a with tt => eq_refl end) (InvG al) (QnameG al) (fun _ => tt) (fun _ => tt) (fun _ => tt)
    (fun m => has_fields m /\ al (snd (fst m)))) with (es := es) (y := @sys_init NN) as [(_ & _ & H) _]; try assumption.
  - intros i p Hs. apply (flush_goodG E plugins al A1 A2 (fun _ _ : unit => tt) tt (fun _ _ => eq_refl) (fun _ _ _ => eq_refl)
      (fun a => match a with tt => eq_refl end) (fun _ => tt) (fun _ => tt)); try reflexivity. exact Hs.
  - intros m s [H1 H2] Hi. split; [|reflexivity]. apply inv_handle; assumption.
  - split; [apply inv_initG|split; constructor].
Qed.
End run.

(** counters *)
Section counters.
Context `{NN : Num} {NL : NumLaw NN} {NX : NumExact NN} (E : env) (plugins : list factory) (key : str).
Notation C := (mp_cls E plugins).

Definition inc_metric (m : metric) : num :=
  match mview m key with
  | Some (v, o) => match rate_of o with
                   | Ok r => if neqb r n0 then n0 else nmul v (ndiv n1 r)
                   | Exn _ => n0
                   end
  | None => n0
  end.
Lemma count_metric_iff m x : has_fields m -> count_metric key m x <->
  exists v o r, mview m key = Some (v, o) /\ rate_of o = Ok r /\ neqb r n0 = false /\ x = ndiv v r.
Proof using NL.
  intros Hm. split.
  - intros H. destruct H as [f0 f1 v Hv|f0 f1 f2 run v r Hv Hr Hx Hz]; unfold mview; cbn [fst snd]; rewrite !str_eqb_refl; cbn [andb counter_parts].
    + apply reads_iff in Hv. rewrite Hv. exists v, None, n1. cbn. repeat split. apply one_not_zero.
    + apply reads_iff in Hv, Hx. apply rate_match_spec in Hr. rewrite Hv, Hr. exists v, (Some run), r. cbn. rewrite Hx. auto.
  - intros (v & o & r & Hv & Ho & Hz & ->). destruct m as [[t k] fs]. unfold mview in Hv. cbn [fst snd] in Hv.
    destruct (str_eqb t (B "c") && str_eqb k key) eqn:Eb; [|discriminate]. apply andb_prop in Eb as [E1 E2]. apply str_eqb_eq in E1, E2. subst t k.
    destruct fs as [|f0 [|f1 [|f2 [|f3 l]]]]; try discriminate; cbn [counter_parts] in Hv.
    + destruct (float_of f0) as [x|] eqn:Ef; [|discriminate]. injection Hv as -> <-. cbn in Ho. injection Ho as <-. apply cm_plain, reads_iff, Ef.
    + destruct (float_of f0) as [x|] eqn:Ef; [|discriminate]. destruct (rate_match f2) as [g|] eqn:Eg; [|discriminate]. injection Hv as -> <-.
      cbn in Ho. destruct (float_of g) as [y|] eqn:Er; [|discriminate]. injection Ho as ->.
      eapply cm_rate; [apply reads_iff, Ef|apply rate_match_spec, Eg|apply reads_iff, Er|exact Hz].
Qed.
Lemma worth_iff m x : has_fields m -> worth key m x <-> x = inc_metric m.
Proof using NL NX.
  intros Hm.
  assert (Hc : forall z, count_metric key m z -> z = inc_metric m).
  { intros z Hz. apply count_metric_iff in Hz as (v & o & r & Hv & Ho & Hz & ->); [|exact Hm]. unfold inc_metric. rewrite Hv, Ho, Hz.
    symmetry. apply nmul_inv. exact Hz. }
  assert (Hn : (forall z, ~ count_metric key m z) -> inc_metric m = n0).
  { intros H. unfold inc_metric. destruct (mview m key) as [[v o]|] eqn:Ev; [|reflexivity]. destruct (rate_of o) as [r|] eqn:Er; [|reflexivity].
    destruct (neqb r n0) eqn:Ez; [reflexivity|]. exfalso. apply (H (ndiv v r)). apply count_metric_iff; [exact Hm|]. eauto 10. }
  split.
  - intros [z H|H]; [apply Hc, H|symmetry; apply Hn, H].
  - intros ->. destruct (mview m key) as [[v o]|] eqn:Ev; [destruct (rate_of o) as [r|] eqn:Er; [destruct (neqb r n0) eqn:Ez|]|].
    4: { replace (inc_metric m) with n0 by (unfold inc_metric; rewrite Ev; reflexivity). apply wo_none. intros z Hz.
         apply count_metric_iff in Hz as (v & o & r & Hv & _); [congruence|exact Hm]. }
    + replace (inc_metric m) with n0 by (unfold inc_metric; rewrite Ev, Er, Ez; reflexivity). apply wo_none. intros z Hz.
      apply count_metric_iff in Hz as (v' & o' & r' & Hv & Ho & Hz & _); [congruence|exact Hm].
    + apply wo_some. assert (Hz : count_metric key m (ndiv v r)) by (apply count_metric_iff; [exact Hm|]; eauto 10).
      rewrite <- (Hc _ Hz). exact Hz.
    + replace (inc_metric m) with n0 by (unfold inc_metric; rewrite Ev, Er; reflexivity). apply wo_none. intros z Hz.
      apply count_metric_iff in Hz as (v' & o' & r' & Hv & Ho & Hz & _); [congruence|exact Hm].
Qed.
Lemma worth_all ms : Forall has_fields ms -> Forall2 (worth key) ms (map inc_metric ms).
Proof using NL NX. induction 1 as [|m ms Hm _ IH]; constructor; [apply worth_iff; auto|exact IH]. Qed.
Lemma pot_handle m (s : mst) : has_fields m ->
  pot_of key (p_counter (handle E plugins m s)) = nadd (pot_of key (p_counter s)) (inc_metric m).
Proof using NL NX.
  intros Hm. unfold pot_of. rewrite handle_counter by exact Hm. unfold inc_metric.
  destruct (mview m key) as [[v o]|]; [|rewrite nadd_0_r; reflexivity]. unfold counter_add.
  assert (Hd : default n0 ((match p_counter s !! key with Some _ => p_counter s | None => <[key := n0]> (p_counter s) end) !! key)
      = default n0 (p_counter s !! key)).
  { destruct (p_counter s !! key) eqn:Ek; [rewrite Ek; reflexivity|]. rewrite lookup_insert. reflexivity. }
  destruct (rate_of o) as [r|e]; [destruct (neqb r n0)|]; cbn [fst].
  - rewrite Hd, nadd_0_r. reflexivity.
  - rewrite lookup_insert. reflexivity.
  - rewrite Hd, nadd_0_r. reflexivity.
Qed.

Theorem metric_conservation es : Forall proper es -> Forall has_fields (gives es) ->
  let y := mrun E plugins es sys_init in
  exists xs, Forall2 (worth key) (gives es) xs /\
    nadd (counts_in key (y_out y))
      (nadd (counts_in key (flat_map pending (y_live y ++ y_gone y)))
            (default n0 (p_counter (y_st y) !! key)))
    = nsum xs.
Proof using NL NX.
  intros Hs Hf y. exists (map inc_metric (gives es)). split; [apply worth_all, Hf|].
  destruct (moved E plugins nadd n0 nadd_comm nadd_assoc nadd_0_l (InvG (fun _ => True)) (QnameG (fun _ => True))
    (fun s => pot_of key (p_counter s)) (count_of key) inc_metric has_fields) with (es := es) (y := @sys_init NN) as [_ H]; try assumption.
  { intros i p Hx. apply (flush_goodG E plugins (fun _ => True)); auto using nadd_comm, nadd_assoc, nadd_0_l, count_stats, count_statsd.
    apply pot_zero. }
  { intros m s Hm Hi. split; [apply inv_handle; auto|apply pot_handle, Hm]. }
  { split; [apply inv_initG|split; constructor]. }
  fold y in H. unfold bal in H. rewrite !sum_owed, !total_counts in H.
  cbn [y_live y_gone y_out y_st sys_init] in H. unfold pot_of at 2 in H. cbn [mp_init empty_state p_counter] in H.
  rewrite lookup_empty in H. cbn [default from_option sumA fold_right total] in H.
  change (counts_in key (flat_map pending [])) with n0 in H. change (counts_in key []) with n0 in H.
  rewrite !nadd_0_l in H.
  assert (Hsum : sumA nadd n0 inc_metric (gives es) = nsum (map inc_metric (gives es))).
  { clear - NL NX. induction (gives es) as [|m l IH]; [reflexivity|]. cbn [sumA fold_right map].
    change (fold_right _ n0 l) with (sumA nadd n0 inc_metric l). rewrite IH, nsum_cons. reflexivity. }
  rewrite Hsum in H. rewrite <- H. clear H Hsum. unfold pot_of.
  rewrite flat_map_app. unfold counts_in. rewrite map_app, nsum_app.
  set (a := nsum (map (count_of key) (y_out y))). set (b := nsum (map (count_of key) (flat_map pending (y_live y)))).
  set (c := nsum (map (count_of key) (flat_map pending (y_gone y)))). set (d := default n0 _).
  rewrite (nadd_comm a). rewrite (nadd_comm _ d). rewrite <- !nadd_assoc. f_equal.
Qed.
End counters.
