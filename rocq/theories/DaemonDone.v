(** A daemon that has become idle has sent everything after one more flush. *)
From Verif Require Import Base StrFacts Num NumFacts Env Stats Glob Metrics Gen GenFacts Processor
  LineSpec LineFacts FloatFacts ProcFacts ProcSpec ReceiveFacts ReceiveFacts2 ReceiveFacts3 PlugFacts Demo
  Sched FlushInv FlushOk SchedFacts FlushRun FlushStages FlushComp FlushFail TimerFacts XQFacts TimerXQ StepFacts HistFacts
  FlushSpec FlushParts Disturb FlushXQ SeriesFacts MeterFacts FlushDerived FlushXQ2
  Client Router RouterSpec RouterFacts RouterProps Server ServerSpec FrameFacts ServerFacts Daemon DaemonFacts.
Open Scope Z_scope.

Lemma accepted_gone `{NN : Num} {S} G inner (fl : gen S) rs cfg max closes refuses : (forall n v, refuses n v = None) ->
  forall es d, d_gone d = [] -> d_gone (drun G inner fl rs cfg max closes refuses d es) = [].
Proof.
  intros Hrf. induction es as [|e es IH]; intros d Hd; [exact Hd|]. apply IH. destruct e as [e|m| |i l|i]; cbn [dstep].
  - destruct (sstep (r_process G inner rs) cfg max closes (d_conns d, d_srv d) e). exact Hd.
  - destruct (r_process G inner rs m (v_proc (d_srv d))). exact Hd.
  - exact Hd.
  - exact Hd.
  - destruct (d_live d !! i) as [[k g]|]; [|exact Hd]. destruct (gnext g (d_proc d)) as [p [v g'| |x]]; [rewrite Hrf|..]; exact Hd.
Qed.

(** Idle, then one more flush which carbon accepts: everything that arrived has been sent. *)
Lemma all_sent sq (E : env (NN := XQ sq)) plugins G interval percent cfg max refuses config ls rs rws links addrs es out key :
  build_rules G true config [] = (ls, Ok rs) -> rules_of config rws -> length links = length ls ->
  1000 <= interval -> 26 <= percent <= 100 -> (forall n, exists q, e_clock E n = Fin q) ->
  (forall n v, refuses n v = None) ->
  arrivals max (map (fun a => (a, [])) addrs) (nets es) out ->
  Forall (unmatched rws) (metrics_in cfg out ++ own es) ->
  let run := drun (S := mst) G (process_message E (mp_cls E plugins)) (flush E (mp_cls E plugins) interval percent) rs cfg max false refuses
               (d_new addrs links mp_init) in
  v_pending (d_srv (run es)) = [] -> d_live (run es) = [] ->
  exists n accepted, let d := run (es ++ DFlush :: repeat (DStep 0) n) in
    d_live d = [] /\ picks (contribution key) (metrics_in cfg out ++ own es) accepted /\
    counts_in key (map (fun c => snd (fst c)) (d_calls d)) = nsum accepted.
Proof.
  intros Hb Hr Hl Hi Hp Hclk Hrf Ha Hu run Hpend Hlive.
  assert (Hrun : forall es es', run (es ++ es') = drun (S := mst) G (process_message E (mp_cls E plugins)) (flush E (mp_cls E plugins) interval percent) rs cfg max false refuses (run es) es').
  { intros a b. apply fold_left_app. }
  destruct (daemon_refines E plugins G interval percent cfg max false refuses config ls rs rws Hb Hr addrs links es Hl) as (y & tss & evs & [H1 H2 H3 H4 H5 H6 H7 H8 H9]).
  { intros m Hin. apply (skipped G rws).
    destruct (daemon_network G (process_message E (mp_cls E plugins)) (flush E (mp_cls E plugins) interval percent) rs cfg max refuses addrs links mp_init es out Ha) as [_ Hper].
    cbv zeta in Hper. rewrite Forall_forall in Hu. apply Hu. rewrite <- Hper. apply elem_of_app. left. apply elem_of_list_In. exact Hin. }
  fold run in H1, H2, H3, H4.
  assert (Hreach : reachable E plugins (d_proc (run es))).
  { exists evs. split; [apply H7, Hi|]. rewrite H1, H6. reflexivity. }
  destruct (completes sq E plugins interval percent (d_proc (run es)) Hreach Hi Hp Hclk) as (s' & l & Hg).
  exists (Datatypes.S (length l)).
  set (evs' := DFlush :: repeat (DStep 0) (Datatypes.S (length l))).
  assert (Hn : nets (es ++ evs') = nets es /\ own (es ++ evs') = own es).
  { unfold nets, own. rewrite !flat_map_app. unfold evs'. cbn [flat_map app].
    assert (Hz : forall n, flat_map (fun e : devent => match e with DNet e => [e] | _ => [] end) (repeat (DStep 0) n) = [] /\
      flat_map (fun e : devent => match e with DInternal m => [m] | _ => [] end) (repeat (DStep 0) n) = []).
    { induction n as [|n [IH1 IH2]]; cbn; [auto|]. rewrite IH1, IH2. auto. }
    destruct (Hz (Datatypes.S (length l))) as [-> ->]. rewrite !app_nil_r. auto. }
  destruct Hn as [Hn1 Hn2].
  destruct (daemon_arrived E plugins G interval percent cfg max refuses config ls rs rws links Hb Hr Hl Hi addrs (es ++ evs') out key) as (w & a & Hw & Hac & Heq).
  { rewrite Hn1. exact Ha. }
  { rewrite Hn2. exact Hu. }
  rewrite Hn2 in Hac. exists a. cbv zeta in Heq |- *. fold run in Heq, Hw.
  pose proof (Hrun es evs') as Hev. unfold evs' in Hev at 2. cbn [drun fold_left dstep] in Hev. rewrite Hlive in Hev. cbn [app] in Hev.
  set (d1 := Dm _ _ _ _ [_] _ _ _ _) in Hev.
  destruct (alone E plugins G interval percent cfg max refuses rs l d1 (d_begun (run es)) (flush E (mp_cls E plugins) interval percent) s') as (I1 & I2 & I3 & I4 & I5);
    [reflexivity|exact Hrf|exact Hg|].
  unfold drun in I1, I2, I3, I4, I5. rewrite <- Hev in I1, I2, I3, I4, I5. unfold evs' in *.
  rewrite I1, I2, I3 in Heq. rewrite I5 in Hw. cbn [d_srv d1] in Hw. rewrite Hpend in Hw. inversion Hw; subst w.
  assert (Hgone : d_gone d1 = []).
  { cbn [d_gone d1]. unfold run. apply (accepted_gone G _ _ rs cfg max false refuses Hrf). reflexivity. }
  rewrite Hgone in Heq. cbn [map app flat_map] in Heq.
  destruct (counters_flushed E plugins interval percent (d_proc (run es)) s' l Hreach Hi Hg) as (ts & cs & rest & _ & _ & _ & _ & Hz).
  rewrite Hz, lookup_fmap in Heq.
  assert (Hd0 : default n0 ((fun _ : Num.num (Num := XQ sq) => n0) <$> p_counter (d_proc (run es)) !! key) = (n0 (NN := XQ sq))) by (destruct (_ !! key); reflexivity).
  rewrite Hd0 in Heq. change (counts_in (NN := XQ sq) key []) with (n0 (NN := XQ sq)) in Heq. change (nsum (NN := XQ sq) []) with (n0 (NN := XQ sq)) in Heq.
  rewrite !nadd_0_r in Heq.
  split; [exact I1|]. split; [exact Hac|exact Heq].
Qed.
