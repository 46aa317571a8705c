(** What the rules hand over is determined by the line, unless a plugin's type is involved. *)
From Verif Require Import Base StrFacts Num Env Stats Glob Metrics Gen GenFacts Processor
  LineSpec LineFacts FloatFacts ProcFacts ProcSpec ReceiveFacts ReceiveFacts2 ReceiveFacts3 PlugFacts
  Sched FlushInv FlushOk SchedFacts Client Router RouterSpec RouterFacts RouterProps
  Server ServerSpec FrameFacts ServerFacts Daemon DaemonFacts MetricSpec MetricFacts MetricRun MetricDaemon.

Section props.
Context `{NN : Num} (G : engine) (rws : list rule_text).

Lemma cut_fun out ms : cut out ms -> Forall (fun m => builtin (fst (fst m))) out -> forall ms', cut out ms' -> ms = ms'.
Proof.
  induction 1 as [|m l l' Hn _ IH|m l Hm]; intros Hf ms' Hc; inversion Hc; subst; try reflexivity;
    apply Forall_cons in Hf as [Hf1 Hf2]; [f_equal; auto|exfalso; tauto|exfalso; tauto].
Qed.
Lemma hands_fun m ms ms' : hands G rws m ms ->
  (forall t k fs out sent, typed_line m t k fs -> routes G 0 rws [(t, k, fs)] out sent -> Forall (fun x => builtin (fst (fst x))) out) ->
  hands G rws m ms' -> ms = ms'.
Proof.
  intros [Hn|t k fs Ht Hn|t k fs out sent l Ht Hro Hc] Hb [Hn'|t' k' fs' Ht' Hn'|t' k' fs' out' sent' l' Ht' Hro' Hc'];
    try reflexivity; try (exfalso; naive_solver).
  - exfalso. destruct (typed_line_fun _ _ _ _ _ _ _ Ht Ht') as (<- & <- & <-). eauto.
  - exfalso. destruct (typed_line_fun _ _ _ _ _ _ _ Ht Ht') as (<- & <- & <-). eauto.
  - destruct (typed_line_fun _ _ _ _ _ _ _ Ht Ht') as (<- & <- & <-).
    destruct (routes_fun _ _ _ _ _ _ _ _ Hro Hro') as [<- _]. eapply cut_fun; eauto.
Qed.
Lemma worth_fun key m x y : worth key m x -> worth key m y -> x = y.
Proof.
  assert (Hu : forall x y, count_metric key m x -> count_metric key m y -> x = y).
  { intros a b [f0 f1 v Hv|f0 f1 f2 run v r Hv Hr Hrr Hz] Hb; inversion Hb; subst;
      repeat match goal with H : reads _ _ |- _ => apply reads_iff in H | H : rate_text _ _ |- _ => apply rate_match_spec in H end; congruence. }
  intros [a Ha|Ha] [b Hb|Hb]; [eauto|exfalso; eapply Hb, Ha|exfalso; eapply Ha, Hb|reflexivity].
Qed.
Lemma cut_in out ms x : cut out ms -> In x ms -> In x out.
Proof. induction 1; intros Hx; [exact Hx|destruct Hx as [->|Hx]; [left; reflexivity|right; auto]|destruct Hx as [->|[]]; left; reflexivity]. Qed.
End props.

Lemma hands_exist `{NN : Num} {NL : NumLaw NN} (G : engine) config ls rs rws m :
  build_rules G true config [] = (ls, Ok rs) -> rules_of config rws -> exists ms, hands G rws m ms.
Proof.
  intros Hb Hr. set (E := Env (NN := NN) (fun _ => n0) (fun _ => 0%Z) (fun _ _ => 0%N) (fun _ l => l) (fun _ _ => reflexivity _)).
  destruct (line_hands E [] G config ls rs rws Hb Hr m (RSt (S := mst) mp_init (repeat (LTcp tf_new) (length ls)) [])) as (ms & H & _);
    [cbn; apply repeat_length|]. eauto.
Qed.
Lemma rules_names `{NN : Num} {NL : NumLaw NN} E plugins G interval percent cfg max closes refuses config ls rs rws links addrs es
  (good : ascii -> Prop) :
  build_rules G true config [] = (ls, Ok rs) -> rules_of config rws -> length links = length ls -> (1000 <= interval)%Z ->
  (forall c, In c name_chars -> good c) ->
  let C := mp_cls E plugins in
  let d := drun G (process_message E C) (flush E C interval percent) rs cfg max closes refuses (d_new addrs links mp_init) es in
  (forall m t k fs out sent t' k' fs', In m (d_order d) -> typed_line m t k fs -> routes G 0 rws [(t, k, fs)] out sent ->
     In (t', k', fs') out -> Forall good k') ->
  Forall (fun x => Forall good (dp_name x) \/ exists key label, dp_name x = B "stats.SLI." ++ key ++ B ".count_" ++ label)
    (map (fun c => snd (fst c)) (d_calls d)).
Proof.
  intros Hb Hr Hl Hi Hg C d Hm.
  refine (any_rules_names E plugins G interval percent cfg max refuses config ls rs rws links Hb Hr Hl Hi (Forall good) closes addrs es _ _ _).
  - intros s Hs. apply List.Forall_forall. intros c Hc. apply Hg, Hs, Hc.
  - intros a b Ha Hb'. apply Forall_app. auto.
  - fold C d. intros m ms t' k' fs' Hin Hh Hx. destruct Hh as [Hn|t k fs Ht Hn|t k fs out sent l Ht Hro Hc]; [destruct Hx..|].
    eapply Hm; [exact Hin|exact Ht|exact Hro|]. eapply cut_in; eassumption.
Qed.
