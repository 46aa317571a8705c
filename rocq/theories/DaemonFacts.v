(** Every execution of the assembled daemon is an execution of its processor (Sched), and
    every line given to the router has arrived or is the daemon's own. *)
From Verif Require Import Base StrFacts Num Env Stats Glob Metrics Gen GenFacts Processor
  LineSpec LineFacts FloatFacts ProcFacts ProcSpec ReceiveFacts ReceiveFacts2 ReceiveFacts3 PlugFacts
  Sched FlushInv FlushOk SchedFacts Client Router RouterSpec RouterFacts RouterProps
  Server ServerSpec FrameFacts ServerFacts Daemon.

(** [delivers G rws m ts]: the texts of the metrics which the rules [rws] make of the line
    [m]; at most one, and one that the line protocol reads back as the same metric *)
Inductive delivers (G : engine) (rws : list rule_text) (m : str) : list str -> Prop :=
| dl_bad : (forall t k fs, ~ typed_line m t k fs) -> delivers G rws m []
| dl_stuck t k fs : typed_line m t k fs -> (~ exists out sent, routes G 0 rws [(t, k, fs)] out sent) -> delivers G rws m []
| dl_none t k fs sent : typed_line m t k fs -> routes G 0 rws [(t, k, fs)] [] sent -> delivers G rws m []
| dl_one t k fs t' k' fs' sent : typed_line m t k fs -> routes G 0 rws [(t, k, fs)] [(t', k', fs')] sent ->
    typed_line (text_of (t', k', fs')) t' k' fs' -> delivers G rws m [text_of (t', k', fs')].

(** the events of the network, and the daemon's own lines *)
Definition nets (es : list devent) : list sevent := flat_map (fun e => match e with DNet e => [e] | _ => [] end) es.
Definition own (es : list devent) : list str := flat_map (fun e => match e with DInternal m => [m] | _ => [] end) es.

Section network.
Context `{NN : Num} {S : Type} (G : engine).
Context (inner : str -> str -> str -> list str -> M S unit) (fl : gen S) (rs : list (rule G)).
Context (cfg : mon) (max : nat) (refuses : nat -> dp -> option exn).
Notation process := (r_process G inner rs).
Notation step := (dstep G inner fl rs cfg max false refuses).
Notation run := (drun G inner fl rs cfg max false refuses).

(** the servers do not look at the processor *)
Definition shape (s : @server (@rst S)) : @server unit := Srv (v_replies s) (v_pending s) tt (map (fun x => (fst x, Ok tt)) (v_runs s)).
Definition nop (m : str) : M unit unit := fun s => (s, Ok tt).
Lemma shape_received a data s : shape (fst (received cfg a data s)) = fst (received cfg a data (shape s)) /\
  snd (received cfg a data s) = snd (received cfg a data (shape s)).
Proof. unfold received. destruct (str_eqb _ _); split; reflexivity. Qed.
Lemma shape_loop addr ps : forall s, let '(s', b, o) := line_loop cfg max false addr ps s in
  line_loop cfg max false addr ps (shape s) = (shape s', b, o).
Proof.
  induction ps as [|p ps IH]; intros s; cbn [line_loop]; [reflexivity|].
  destruct ps as [|q ps]; [destruct (_ <? _)%nat; reflexivity|].
  destruct (_ <? _)%nat; [reflexivity|]. destruct (shape_received addr p s) as [H1 H2].
  destruct (received cfg addr p s) as [s1 w1], (received cfg addr p (shape s)) as [s2 w2]. cbn [fst snd] in *. subst s2 w2.
  cbn [andb]. apply IH.
Qed.
Lemma shape_step ks s e : let '(ks', s') := sstep process cfg max false (ks, s) e in
  sstep nop cfg max false (ks, shape s) e = (ks', shape s').
Proof.
  destruct e as [a data|i data|i]; cbn [sstep].
  - rewrite (proj1 (shape_received a data s)). reflexivity.
  - destruct (ks !! i) as [k|]; [|reflexivity]. unfold data_received. destruct (k_open k); [|reflexivity].
    pose proof (shape_loop (k_addr k) (split_on2 c_cr c_nl (k_buf k ++ data)) s) as H.
    destruct (line_loop cfg max false _ _ s) as [[s' b] o]. rewrite H. reflexivity.
  - unfold run_call. cbn [shape v_pending]. destruct (v_pending s !! i) as [d|]; [|reflexivity].
    destruct (process d (v_proc s)) as [p r]. cbn [nop]. unfold shape. cbn [v_replies v_pending v_runs].
    rewrite map_app. reflexivity.
Qed.
Lemma shape_runs es : forall d, let d' := run d es in
  srun nop cfg max false (d_conns d, shape (d_srv d)) (nets es) = (d_conns d', shape (d_srv d')).
Proof.
  induction es as [|e es IH]; intros d; cbn [drun fold_left nets flat_map]; [reflexivity|].
  change (fold_left step es (step d e)) with (run (step d e) es). specialize (IH (step d e)). cbv zeta in IH |- *.
  rewrite <- IH. destruct e as [e|m| |i l|i]; cbn [dstep app].
  - pose proof (shape_step (d_conns d) (d_srv d) e) as H. cbn [srun fold_left]. change (fold_left _ (nets es)) with (fun x => srun nop cfg max false x (nets es)).
    cbn beta. destruct (sstep process cfg max false (d_conns d, d_srv d) e) as [ks s]. rewrite H. reflexivity.
  - destruct (process m (v_proc (d_srv d))) as [p r]. reflexivity.
  - reflexivity.
  - reflexivity.
  - destruct (d_live d !! i) as [[k g]|]; [|reflexivity]. destruct (gnext g (d_proc d)) as [p [v g'| |x]]; [|reflexivity..].
    destruct (refuses _ _); reflexivity.
Qed.

(** the lines given to the router are those of the servers and the daemon's own *)
Lemma order_runs es : forall d, d_order d ≡ₚ map fst (v_runs (d_srv d)) ++ map fst (d_internal d) ->
  let d' := run d es in
  d_order d' ≡ₚ map fst (v_runs (d_srv d')) ++ map fst (d_internal d') /\ map fst (d_internal d') = map fst (d_internal d) ++ own es.
Proof.
  induction es as [|e es IH]; intros d Hd; cbn [drun fold_left own flat_map]; [rewrite app_nil_r; auto|].
  change (fold_left step es (step d e)) with (run (step d e) es).
  assert (H : d_order (step d e) ≡ₚ map fst (v_runs (d_srv (step d e))) ++ map fst (d_internal (step d e)) /\
    map fst (d_internal (step d e)) = map fst (d_internal d) ++ own [e]).
  { destruct e as [e|m| |i l|i]; cbn [dstep own flat_map app]; rewrite ?app_nil_r.
    - destruct (sstep process cfg max false (d_conns d, d_srv d) e) as [ks s] eqn:E. cbn [d_order d_srv d_internal].
      split; [|reflexivity].
      destruct e as [a data|i data|i]; cbn [sstep] in E.
      + injection E as <- <-. rewrite app_nil_r. unfold received. destruct (str_eqb _ _); exact Hd.
      + rewrite app_nil_r. destruct (d_conns d !! i) as [k|]; [|injection E as <- <-; exact Hd].
        unfold data_received in E. destruct (k_open k); [|injection E as <- <-; exact Hd].
        assert (Hl : forall addr ps s0 s1 b o, line_loop cfg max false addr ps s0 = (s1, b, o) -> v_runs (S := @rst S) s1 = v_runs s0).
        { clear. intros addr ps. induction ps as [|p ps IH]; intros s0 s1 b o; cbn [line_loop]; [intros [= <- _ _]; reflexivity|].
          destruct ps as [|q ps]; [destruct (_ <? _)%nat; intros [= <- _ _]; reflexivity|].
          destruct (_ <? _)%nat; [intros [= <- _ _]; reflexivity|].
          unfold received. destruct (str_eqb _ _); cbn [andb]; intros H; rewrite (IH _ _ _ _ H); reflexivity. }
        destruct (line_loop cfg max false _ _ (d_srv d)) as [[s1 b] o] eqn:El. injection E as _ <-. rewrite (Hl _ _ _ _ _ _ El). exact Hd.
      + injection E as <- <-. unfold run_call. destruct (v_pending (d_srv d) !! i) as [m|]; [|rewrite app_nil_r; exact Hd].
        destruct (process m (v_proc (d_srv d))) as [p r]. cbn [v_runs]. rewrite map_app, Hd. cbn [map fst].
        rewrite <- !app_assoc. f_equiv. apply Permutation_app_comm.
    - destruct (process m (v_proc (d_srv d))) as [p r]. cbn [d_order d_srv d_internal v_runs]. rewrite map_app, Hd, <- app_assoc. split; reflexivity.
    - auto.
    - auto.
    - destruct (d_live d !! i) as [[k g]|]; [|auto]. destruct (gnext g (d_proc d)) as [p [v g'| |x]]; [|auto..].
      destruct (refuses _ _); auto. }
  destruct H as [H1 H2]. destruct (IH _ H1) as [H3 H4]. split; [exact H3|]. cbv zeta in *. rewrite H4, H2, <- app_assoc.
  f_equal. unfold own. cbn [flat_map]. rewrite app_nil_r. reflexivity.
Qed.

Definition metrics_in (out : list (str * str)) : list str :=
  map snd (List.filter (fun x => negb (str_eqb (snd x) (m_message cfg))) out).
Lemma daemon_network addrs links p0 es out :
  arrivals max (map (fun a => (a, [])) addrs) (nets es) out ->
  let d := run (d_new addrs links p0) es in
  v_replies (d_srv d) = map (fun x => (fst x, m_response cfg)) (List.filter (fun x => str_eqb (snd x) (m_message cfg)) out) /\
  d_order d ++ v_pending (d_srv d) ≡ₚ metrics_in out ++ own es.
Proof.
  intros H d. destruct (server_history nop cfg max addrs (nets es) out tt H) as [[H1 H2 _] _].
  pose proof (shape_runs es (d_new addrs links p0)) as Hs. cbv zeta in Hs. fold d in Hs.
  cbn [d_new d_conns d_srv] in Hs. change (shape (srv_new (RSt p0 links []))) with (srv_new tt) in Hs. rewrite Hs in H1, H2. cbn [snd shape v_replies v_runs v_pending] in H1, H2.
  destruct (order_runs es (d_new addrs links p0)) as [H3 H4]; [reflexivity|]. cbv zeta in H3, H4. fold d in H3, H4. cbn [d_new d_internal map app] in H4.
  rewrite map_map in H2. cbn [fst] in H2. split; [exact H1|].
  rewrite H3, H4. unfold metrics_in. unfold metrics, ping in H2. rewrite <- H2, <- !app_assoc. apply Permutation_app_head, Permutation_app_comm.
Qed.
End network.

(** ** The processor's side *)
Section processor.
Context `{NN : Num} (E : env) (plugins : list factory) (G : engine).
Notation C := (mp_cls E plugins).
Context (interval percent : Z) (cfg : mon) (max : nat) (closes : bool) (refuses : nat -> dp -> option exn).
Context (config : str) (ls : list lspec) (rs : list (rule G)) (rws : list rule_text).
Context (Hb : build_rules G true config [] = (ls, Ok rs)) (Hr : rules_of config rws).
Notation inner := (process_message E C).
Notation fl := (flush E C interval percent).
Notation step := (dstep (S := mst) G inner fl rs cfg max closes refuses).
Notation run := (drun (S := mst) G inner fl rs cfg max closes refuses).

Lemma delivered m ts (s : @rst mst) : delivers G rws m ts -> length (r_links s) = length ls ->
  r_proc (S := mst) (fst (r_process (S := mst) G inner rs m s)) = receive_all E plugins ts (r_proc s).
Proof using Hb Hr.
  intros Hd Hl. destruct Hd as [Hn|t k fs Ht Hn|t k fs sent Ht Hro|t k fs t' k' fs' sent Ht Hro Ht'].
  - unfold r_process. rewrite base_process_decode. destruct (decode m) as [[[t raw] fs]|] eqn:Ed; [|reflexivity].
    exfalso. apply (Hn t (normalize_key raw) fs). apply typed_line_decode. eauto.
  - destruct (process_stuck (S := mst) G inner _ _ _ _ s m t k fs Hb Hr Hl Ht Hn) as (s' & e & -> & H). exact H.
  - destruct (process_route (S := mst) G inner _ _ _ _ s m t k fs _ _ Hb Hr Hl Ht Hro) as (s' & r & -> & Hh & _). inversion Hh; subst. symmetry. assumption.
  - destruct (process_route (S := mst) G inner _ _ _ _ s m t k fs _ _ Hb Hr Hl Ht Hro) as (s' & r & -> & Hh & _). cbn [fst].
    apply typed_line_decode in Ht' as (raw & Hd & Hn). unfold receive_all, receive. cbn [fold_left].
    rewrite process_decode, Hd, Hn.
    inversion Hh as [|? ? ? ? ? ? ? ? Hp Hh'|? ? ? ? ? ? ? Hp]; subst; [inversion Hh'; subst|]; apply (f_equal fst) in Hp; cbn [fst] in Hp; try congruence; symmetry; exact Hp.
Qed.

(** every flush is started with the interval and the percentile of this daemon *)
Definition begun_here (e : event) : Prop := match e with Start i p => i = interval /\ p = percent | _ => True end.
(** what a daemon and a processor under Sched have in common *)
Record simulates (d : @daemon NN mst) (y : @sys NN) (tss : list (list str)) (es : list event) : Prop := {
  sm_st : d_proc d = y_st y;
  sm_live : map snd (d_live d) = y_live y;
  sm_gone : d_gone d = y_gone y;
  sm_out : map (fun c => snd (fst c)) (d_calls d) = y_out y;
  sm_links : length (r_links (v_proc (d_srv d))) = length ls;
  sm_run : y = sys_run E plugins es sys_init;
  sm_sane : 1000 <= interval -> Forall sane es;
  sm_lines : lines es = concat tss;
  sm_order : Forall2 (delivers G rws) (d_order d) tss;
  sm_starts : Forall begun_here es }.
Lemma lines_recvs ts : lines (map Recv ts) = ts.
Proof. unfold lines. induction ts as [|t ts IH]; [reflexivity|]. cbn. rewrite IH. reflexivity. Qed.
Lemma run_recvs ts : forall y : @sys NN, sys_run E plugins (map Recv ts) y =
  Sys (receive_all E plugins ts (y_st y)) (y_live y) (y_gone y) (y_out y) (y_exn y).
Proof.
  induction ts as [|t ts IH]; intros y; cbn [map sys_run fold_left]; [destruct y; reflexivity|].
  change (fold_left _ (map Recv ts)) with (sys_run E plugins (map Recv ts)). rewrite IH. reflexivity.
Qed.
Lemma run_app es es' y : sys_run E plugins (es ++ es') y = sys_run E plugins es' (sys_run E plugins es y).
Proof. apply fold_left_app. Qed.
Lemma lines_app es es' : lines (es ++ es') = lines es ++ lines es'.
Proof. apply flat_map_app. Qed.
Lemma here_recvs ts : Forall begun_here (map Recv ts).
Proof. induction ts; constructor; [exact Logic.I|assumption]. Qed.
Lemma sane_recvs ts : Forall sane (map Recv ts).
Proof. induction ts; constructor; [exact Logic.I|assumption]. Qed.

(** a line is processed *)
Lemma sim_line d y tss es m ts ks (s s' : @server (@rst mst)) : simulates d y tss es -> delivers G rws m ts ->
  v_proc s = v_proc (d_srv d) -> v_proc s' = fst (r_process (S := mst) G inner rs m (v_proc s)) ->
  forall i, simulates (Dm ks s' i (d_order d ++ [m]) (d_live d) (d_gone d) (d_begun d) (d_calls d) (d_ended d))
    (sys_run E plugins (map Recv ts) y) (tss ++ [ts]) (es ++ map Recv ts).
Proof using Hb Hr.
  intros [H1 H2 H3 H4 H5 H6 H7 H8 H9 H10] Hd Hs Hs' i. rewrite run_recvs.
  split; unfold d_proc in *; cbn [d_srv d_live d_gone d_calls d_order y_st y_live y_gone y_out]; try assumption.
  - refine (eq_trans (f_equal r_proc Hs') (eq_trans (delivered m ts _ Hd _) _)); [rewrite Hs; exact H5|].
    rewrite Hs, H1. reflexivity.
  - refine (eq_trans (f_equal (fun p => length (r_links p)) Hs') _). apply (process_length (S := mst) G inner _ _ _ _ _ Hb). rewrite Hs. exact H5.
  - rewrite run_app, <- H6, run_recvs. reflexivity.
  - intros Hi. apply Forall_app. split; [apply H7, Hi|apply sane_recvs].
  - rewrite lines_app, H8, lines_recvs, concat_app. cbn. rewrite app_nil_r. reflexivity.
  - apply Forall2_app; [exact H9|]. constructor; [exact Hd|constructor].
  - apply Forall_app. split; [exact H10|apply here_recvs].
Qed.
Lemma loop_proc {S} cfg' max' closes' addr ps : forall (s0 s1 : @server S) b o,
  line_loop cfg' max' closes' addr ps s0 = (s1, b, o) -> v_proc s1 = v_proc s0.
Proof.
  induction ps as [|p ps IH]; intros s0 s1 b o; cbn [line_loop]; [intros [= <- _ _]; reflexivity|].
  destruct ps as [|q ps]; [destruct (_ <? _)%nat; intros [= <- _ _]; reflexivity|].
  destruct (_ <? _)%nat; [intros [= <- _ _]; reflexivity|].
  unfold received. destruct (str_eqb _ _); (destruct (closes' && _); [intros [= <- _ _]; reflexivity|]); intros H; rewrite (IH _ _ _ _ H); reflexivity.
Qed.
Lemma sim_step d y tss es e : simulates d y tss es ->
  (forall m, In m (d_order (step d e)) -> exists ts, delivers G rws m ts) ->
  exists y' tss' es', simulates (step d e) y' tss' es'.
Proof using Hb Hr.
  intros Hs Hm. destruct e as [e|m| |i l|i].
  - assert (Hquiet : forall ks s', v_proc s' = v_proc (d_srv d) ->
      exists y' tss' es', simulates (Dm ks s' (d_internal d) (d_order d) (d_live d) (d_gone d) (d_begun d) (d_calls d) (d_ended d)) y' tss' es').
    { intros ks s' Hp. exists y, tss, es. destruct Hs as [H1 H2 H3 H4 H5 H6 H7 H8 H9 H10].
      split; cbn; try assumption; [unfold d_proc in *; cbn; rewrite Hp; exact H1|rewrite Hp; exact H5]. }
    cbn [dstep] in *. destruct (sstep (r_process (S := mst) G inner rs) cfg max closes (d_conns d, d_srv d) e) as [ks s'] eqn:Es.
    destruct e as [a data|i data|i]; cbn [sstep] in Es.
    + injection Es as <- <-. rewrite app_nil_r. apply Hquiet. unfold received. destruct (str_eqb _ _); reflexivity.
    + rewrite app_nil_r. apply Hquiet. destruct (d_conns d !! i) as [k|]; [|injection Es as <- <-; reflexivity].
      unfold data_received in Es. destruct (k_open k); [|injection Es as <- <-; reflexivity].
      destruct (line_loop _ _ _ _ _ (d_srv d)) as [[s1 b] o] eqn:El. injection Es as _ <-. eapply loop_proc, El.
    + injection Es as <- <-. unfold run_call. destruct (v_pending (d_srv d) !! i) as [m|] eqn:Ep; [|rewrite app_nil_r; apply Hquiet; reflexivity].
      destruct (Hm m) as [ts Hd]; [cbn [d_order]; apply in_or_app; right; left; reflexivity|].
      destruct (r_process (S := mst) G inner rs m (v_proc (d_srv d))) as [p r] eqn:Ei.
      do 3 eexists. eapply (sim_line d y tss es m ts _ (d_srv d)); [exact Hs|exact Hd|reflexivity|]. cbn [v_proc]. rewrite Ei. reflexivity.
  - cbn [dstep] in *. destruct (r_process (S := mst) G inner rs m (v_proc (d_srv d))) as [p r] eqn:Ei.
    destruct (Hm m) as [ts Hd]; [cbn [d_order]; apply in_or_app; right; left; reflexivity|].
    do 3 eexists. eapply (sim_line d y tss es m ts _ (d_srv d)); [exact Hs|exact Hd|reflexivity|]. cbn [v_proc]. rewrite Ei. reflexivity.
  - exists (sys_step E plugins y (Start interval percent)), tss, (es ++ [Start interval percent]).
    destruct Hs as [H1 H2 H3 H4 H5 H6 H7 H8 H9 H10].
    split; unfold d_proc in *; cbn [dstep d_srv d_live d_gone d_calls d_order sys_step y_st y_live y_gone y_out]; try assumption.
    + rewrite map_app, H2. reflexivity.
    + rewrite run_app, <- H6. reflexivity.
    + intros Hi. apply Forall_app. split; [apply H7, Hi|]. constructor; [exact Hi|constructor].
    + rewrite lines_app, H8. cbn. rewrite app_nil_r. reflexivity.
    + apply Forall_app. split; [exact H10|]. constructor; [split; reflexivity|constructor].
  - exists y, tss, es. destruct Hs as [H1 H2 H3 H4 H5 H6 H7 H8 H9 H10]. split; cbn; try assumption.
    rewrite insert_length. exact H5.
  - cbn [dstep]. destruct (d_live d !! i) as [[k g]|] eqn:El; [|eauto].
    destruct Hs as [H1 H2 H3 H4 H5 H6 H7 H8 H9 H10].
    assert (Hy : y_live y !! i = Some g) by (rewrite <- H2, list_lookup_fmap, El; reflexivity).
    assert (Hst : sys_step E plugins y (Resume i) = match gnext g (y_st y) with
          | (s', Yielded d g') => Sys s' (<[i := g']> (y_live y)) (y_gone y) (y_out y ++ [d]) (y_exn y)
          | (s', Finished) => Sys s' (delete i (y_live y)) (y_gone y) (y_out y) (y_exn y)
          | (s', Raised x) => Sys s' (delete i (y_live y)) (y_gone y) (y_out y) (y_exn y ++ [x])
          end) by (cbn [sys_step]; rewrite Hy; reflexivity).
    rewrite H1 in *. destruct (gnext g (y_st y)) as [p [v g'| |x]] eqn:Eg.
    + destruct (refuses (length (d_calls d)) v) as [x|].
      * exists (sys_run E plugins [Resume i; Drop i] y), tss, (es ++ [Resume i; Drop i]).
        assert (Hrun : sys_run E plugins [Resume i; Drop i] y =
          Sys p (delete i (y_live y)) (y_gone y ++ [g']) (y_out y ++ [v]) (y_exn y)).
        { cbn [sys_run fold_left]. rewrite Hst. cbn [sys_step y_live y_st y_gone y_out y_exn].
          rewrite list_lookup_insert by (eapply lookup_lt_Some, Hy). f_equal.
          clear. generalize (y_live y). intros l. revert i. induction l as [|z l IH]; intros [|i]; cbn; auto. f_equal. apply IH. }
        split; unfold d_proc, d_set_proc in *; cbn [ d_srv d_live d_gone d_calls d_order v_proc r_proc r_links]; rewrite ?Hrun; cbn [y_st y_live y_gone y_out]; try assumption; try reflexivity.
        { rewrite <- H2. clear. generalize (d_live d). intros l. revert i. induction l as [|z l IH]; intros [|i]; cbn; auto. f_equal. apply IH. }
        { rewrite H3. reflexivity. }
        { rewrite map_app, H4. reflexivity. }
        { rewrite run_app, <- H6. symmetry. exact Hrun. }
        { intros Hi. apply Forall_app. split; [apply H7, Hi|]. repeat constructor. }
        { rewrite lines_app, H8. cbn. rewrite app_nil_r. reflexivity. }
        { apply Forall_app. split; [exact H10|]. repeat constructor. }
      * exists (sys_step E plugins y (Resume i)), tss, (es ++ [Resume i]). rewrite Hst.
        split; unfold d_proc, d_set_proc in *; cbn [ d_srv d_live d_gone d_calls d_order v_proc r_proc r_links y_st y_live y_gone y_out]; try assumption; try reflexivity.
        { change (<[i := g']> (y_live y)) with (<[i := snd (k, g')]> (y_live y)). rewrite <- H2. apply (list_fmap_insert snd). }
        { rewrite map_app, H4. reflexivity. }
        { rewrite run_app, <- H6. symmetry. exact Hst. }
        { intros Hi. apply Forall_app. split; [apply H7, Hi|]. repeat constructor. }
        { rewrite lines_app, H8. cbn. rewrite app_nil_r. reflexivity. }
        { apply Forall_app. split; [exact H10|]. repeat constructor. }
    + exists (sys_step E plugins y (Resume i)), tss, (es ++ [Resume i]). rewrite Hst.
      split; unfold d_proc, d_set_proc in *; cbn [ d_srv d_live d_gone d_calls d_order v_proc r_proc r_links y_st y_live y_gone y_out]; try assumption; try reflexivity.
      { rewrite <- H2. clear. generalize (d_live d). intros l. revert i. induction l as [|z l IH]; intros [|i]; cbn; auto. f_equal. apply IH. }
      { rewrite run_app, <- H6. symmetry. exact Hst. }
      { intros Hi. apply Forall_app. split; [apply H7, Hi|]. repeat constructor. }
      { rewrite lines_app, H8. cbn. rewrite app_nil_r. reflexivity. }
      { apply Forall_app. split; [exact H10|]. repeat constructor. }
    + exists (sys_step E plugins y (Resume i)), tss, (es ++ [Resume i]). rewrite Hst.
      split; unfold d_proc, d_set_proc in *; cbn [ d_srv d_live d_gone d_calls d_order v_proc r_proc r_links y_st y_live y_gone y_out]; try assumption; try reflexivity.
      { rewrite <- H2. clear. generalize (d_live d). intros l. revert i. induction l as [|z l IH]; intros [|i]; cbn; auto. f_equal. apply IH. }
      { rewrite run_app, <- H6. symmetry. exact Hst. }
      { intros Hi. apply Forall_app. split; [apply H7, Hi|]. repeat constructor. }
      { rewrite lines_app, H8. cbn. rewrite app_nil_r. reflexivity. }
      { apply Forall_app. split; [exact H10|]. repeat constructor. }
Qed.
Lemma order_grows d e : exists x, d_order (step d e) = d_order d ++ x.
Proof.
  destruct e as [e|m| |i l|i]; cbn [dstep].
  - destruct (sstep (r_process (S := mst) G inner rs) cfg max closes (d_conns d, d_srv d) e) as [ks s]. eexists. reflexivity.
  - destruct (r_process (S := mst) G inner rs m (v_proc (d_srv d))) as [p r]. eexists. reflexivity.
  - exists []. rewrite app_nil_r. reflexivity.
  - exists []. rewrite app_nil_r. reflexivity.
  - exists []. rewrite app_nil_r. destruct (d_live d !! i) as [[k g]|]; [|reflexivity].
    destruct (gnext g (d_proc d)) as [p [v g'| |x]]; [destruct (refuses _ _)|..]; reflexivity.
Qed.
Lemma order_grows_all es : forall d, exists x, d_order (run d es) = d_order d ++ x.
Proof.
  induction es as [|e es IH]; intros d; [exists []; rewrite app_nil_r; reflexivity|].
  cbn [drun fold_left]. change (fold_left step es (step d e)) with (run (step d e) es).
  destruct (order_grows d e) as [x Hx], (IH (step d e)) as [x' Hx']. exists (x ++ x'). rewrite Hx', Hx, app_assoc. reflexivity.
Qed.
Lemma sim_run evs : forall d y tss es, simulates d y tss es ->
  (forall m, In m (d_order (run d evs)) -> exists ts, delivers G rws m ts) ->
  exists y' tss' es', simulates (run d evs) y' tss' es'.
Proof using Hb Hr.
  induction evs as [|e evs IH]; intros d y tss es Hs Hm; [eauto|].
  cbn [drun fold_left] in *. change (fold_left step evs (step d e)) with (run (step d e) evs) in *.
  destruct (sim_step d y tss es e Hs) as (y1 & tss1 & es1 & H1).
  - intros m Hi. apply Hm. destruct (order_grows_all evs (step d e)) as [x ->]. apply in_or_app. auto.
  - eapply IH; eassumption.
Qed.
Lemma daemon_refines addrs links evs : length links = length ls -> let d := run (d_new addrs links mp_init) evs in
  (forall m, In m (d_order d) -> exists ts, delivers G rws m ts) ->
  exists y tss es, simulates d y tss es.
Proof using Hb Hr.
  intros Hl d Hm. apply (sim_run evs (d_new addrs links mp_init) sys_init [] []); [|exact Hm].
  split; try reflexivity; try constructor. exact Hl.
Qed.
End processor.

(** ** The whole daemon *)
Section conserved.
Context `{NN : Num} {NL : NumLaw NN} {NX : NumExact NN} (E : env) (plugins : list factory) (G : engine).
Notation C := (mp_cls E plugins).
Context (interval percent : Z) (cfg : mon) (max : nat) (refuses : nat -> dp -> option exn).
Context (config : str) (ls : list lspec) (rs : list (rule G)) (rws : list rule_text) (links : list rlink).
Context (Hb : build_rules G true config [] = (ls, Ok rs)) (Hr : rules_of config rws) (Hl : length links = length ls).
Context (Hi : 1000 <= interval).
Notation run := (drun (S := mst) G (process_message E C) (flush E C interval percent) rs cfg max false refuses).
Notation sent d := (map (fun c => snd (fst c)) (d_calls d)).

Lemma forall2_exists {A B} (R : A -> B -> Prop) l : (forall x, In x l -> exists y, R x y) -> exists l', Forall2 R l l'.
Proof.
  induction l as [|x l IH]; intros H; [exists []; constructor|].
  destruct (H x (or_introl eq_refl)) as [y Hy], IH as [l' Hl']; [auto using in_cons|]. exists (y :: l'). constructor; assumption.
Qed.
(** [handled] are the lines the router was given, [waiting] those still scheduled *)
Lemma daemon_conservation addrs es out key :
  arrivals max (map (fun a => (a, [])) addrs) (nets es) out ->
  (forall m, In m (metrics_in cfg out ++ own es) -> exists ts, delivers G rws m ts) ->
  let d := run (d_new addrs links mp_init) es in
  exists handled waiting tss accepted,
    handled ++ waiting ≡ₚ metrics_in cfg out ++ own es /\ waiting = v_pending (d_srv d) /\
    Forall2 (delivers G rws) handled tss /\ picks (contribution key) (concat tss) accepted /\
    nadd (counts_in key (sent d))
      (nadd (counts_in key (flat_map pending (map snd (d_live d) ++ d_gone d)))
            (default n0 (p_counter (d_proc d) !! key)))
    = nsum accepted.
Proof using NL NX Hb Hr Hl Hi.
  intros Ha Hm d.
  destruct (daemon_network G (process_message E C) (flush E C interval percent) rs cfg max refuses addrs links mp_init es out Ha) as [_ Hp].
  cbv zeta in Hp. change (drun G _ _ rs cfg max false refuses _ es) with d in Hp.
  destruct (daemon_refines E plugins G interval percent cfg max false refuses config ls rs rws Hb Hr addrs links es Hl) as (y & tss & evs & Hs).
  { intros m Hin. apply Hm. rewrite <- Hp. apply in_or_app. left. exact Hin. }
  fold d in Hs. destruct Hs as [H1 H2 H3 H4 H5 H6 H7 H8 H9].
  destruct (conservation E plugins key evs (H7 Hi)) as (l & Hpk & Hc). cbv zeta in Hc. rewrite <- H6 in Hc. rewrite H8 in Hpk.
  exists (d_order d), (v_pending (d_srv d)), tss, l. repeat split; try assumption.
  rewrite H2, H3, H1, H4. exact Hc.
Qed.

(** the rules match nothing: what is handed on contributes what the line contributes *)
Lemma skipped m : unmatched rws m -> exists ts, delivers G rws m ts.
Proof using Type.
  intros Hu. destruct (decode m) as [[[t raw] fs]|] eqn:Ed.
  - assert (Ht : typed_line m t (normalize_key raw) fs) by (apply typed_line_decode; eauto).
    eexists. eapply dl_one; [exact Ht|apply routes_skip, Hu, Ht|].
    eapply type_restored; [exact Ht|]. apply normalize_key_alphabet.
  - exists []. apply dl_bad. intros t k fs Ht. apply typed_line_decode in Ht as (raw & Hd & _). congruence.
Qed.
Lemma typed_line_fun m t k fs t' k' fs' : typed_line m t k fs -> typed_line m t' k' fs' -> t = t' /\ k = k' /\ fs = fs'.
Proof using Type.
  intros H H'. apply typed_line_decode in H as (raw & H & <-). apply typed_line_decode in H' as (raw' & H' & <-).
  rewrite H in H'. injection H' as -> -> ->. auto.
Qed.
(** anything computed from the value and the rate of a counter line *)
Definition sampled (f : num -> num -> num) (key m : str) (x : num) : Prop :=
  exists v r, counter_sample m key v r /\ x = f v r.
Lemma skipped_same f key m ts : unmatched rws m -> delivers G rws m ts ->
  forall l, picks (sampled f key) ts l <-> picks (sampled f key) [m] l.
Proof using Type.
  intros Hu Hd.
  assert (Hone : forall t k fs t' k' fs' sent, typed_line m t k fs -> routes G 0 rws [(t, k, fs)] [(t', k', fs')] sent ->
    forall x, sampled f key (text_of (t', k', fs')) x <-> sampled f key m x).
  { intros t k fs t' k' fs' sent0 Ht Hro.
    destruct (routes_fun G _ _ _ _ _ _ _ Hro (routes_skip G _ rws (Hu _ _ _ Ht) 0)) as [Ho _]. injection Ho as -> -> ->.
    assert (Ht2 : typed_line (text_of (t, k, fs)) t k fs).
    { eapply type_restored; [exact Ht|]. apply typed_line_decode in Ht as (raw & _ & <-). apply normalize_key_alphabet. }
    assert (Hsame : forall t1 k1 fs1, typed_line (text_of (t, k, fs)) t1 k1 fs1 <-> typed_line m t1 k1 fs1).
    { intros t1 k1 fs1. split; intros H; [destruct (typed_line_fun _ _ _ _ _ _ _ H Ht2) as (-> & -> & ->)|
        destruct (typed_line_fun _ _ _ _ _ _ _ H Ht) as (-> & -> & ->)]; assumption. }
    intros x. unfold sampled. split; intros (v & r & Hc & ->); exists v, r; (split; [|reflexivity]);
      destruct Hc; econstructor; try (apply Hsame; eassumption); eassumption. }
  destruct Hd as [Hn|t k fs Ht Hn|t k fs sent Ht Hro|t k fs t' k' fs' sent Ht Hro Ht'].
  - intros l. split; intros H.
    + inversion H; subst. apply picks_miss; [|constructor]. intros a (v & r & Hc & _). destruct Hc; eapply Hn; eassumption.
    + inversion H as [|? ? ? ? Hc|]; subst; [|assumption]. destruct Hc as (v & r & Hc & _). exfalso. destruct Hc; eapply Hn; eassumption.
  - exfalso. apply Hn. do 2 eexists. apply routes_skip, Hu, Ht.
  - destruct (routes_fun G _ _ _ _ _ _ _ Hro (routes_skip G _ rws (Hu _ _ _ Ht) 0)) as [Ho _]. discriminate.
  - specialize (Hone _ _ _ _ _ _ _ Ht Hro). intros l. split; intros H.
    + inversion H as [|? ? ? ? Hc Hk|? ? ? Hc Hk]; subst; inversion Hk; subst.
      * apply picks_hit; [apply Hone, Hc|constructor].
      * apply picks_miss; [|constructor]. intros a Hx. apply (Hc a), Hone, Hx.
    + inversion H as [|? ? ? ? Hc Hk|? ? ? Hc Hk]; subst; inversion Hk; subst.
      * apply picks_hit; [apply Hone, Hc|constructor].
      * apply picks_miss; [|constructor]. intros a Hx. apply (Hc a), Hone, Hx.
Qed.
Lemma picks_split {A} (P : str -> A -> Prop) a b l : picks P (a ++ b) l -> exists x y, l = x ++ y /\ picks P a x /\ picks P b y.
Proof using Type.
  revert l. induction a as [|m a IH]; intros l H; [exists [], l; repeat split; [constructor|exact H]|].
  inversion H as [|? ? ? l' Hc Hk|? ? ? Hc Hk]; subst; destruct (IH _ Hk) as (x & y & -> & Hx & Hy).
  - exists (a0 :: x), y. repeat split; [apply picks_hit; assumption|assumption].
  - exists x, y. repeat split; [apply picks_miss; assumption|assumption].
Qed.
Lemma picks_join {A} (P : str -> A -> Prop) a b x y : picks P a x -> picks P b y -> picks P (a ++ b) (x ++ y).
Proof using Type. induction 1; intros Hy; cbn; [exact Hy|apply picks_hit; auto|apply picks_miss; auto]. Qed.
Lemma skipped_all f key ms tss : Forall (unmatched rws) ms -> Forall2 (delivers G rws) ms tss ->
  forall l, picks (sampled f key) (concat tss) l -> picks (sampled f key) ms l.
Proof using Type.
  intros Hu H. induction H as [|m ts ms tss Hd _ IH]; intros l Hp; [exact Hp|].
  inversion_clear Hu as [|? ? Hm Hu']. cbn [concat] in Hp. apply picks_split in Hp as (x & y & -> & Hx & Hy).
  apply (picks_join _ [m] ms); [apply (skipped_same f key m ts); assumption|apply IH; assumption].
Qed.
Lemma daemon_transparent addrs es out key :
  arrivals max (map (fun a => (a, [])) addrs) (nets es) out ->
  Forall (unmatched rws) (metrics_in cfg out ++ own es) ->
  let d := run (d_new addrs links mp_init) es in
  exists handled accepted,
    handled ++ v_pending (d_srv d) ≡ₚ metrics_in cfg out ++ own es /\
    picks (contribution key) handled accepted /\
    nadd (counts_in key (sent d))
      (nadd (counts_in key (flat_map pending (map snd (d_live d) ++ d_gone d)))
            (default n0 (p_counter (d_proc d) !! key)))
    = nsum accepted.
Proof using NL NX Hb Hr Hl Hi.
  intros Ha Hu d. destruct (daemon_conservation addrs es out key Ha) as (h & w & tss & l & H1 & H2 & H3 & H4 & H5).
  { intros m Hm. apply skipped. rewrite Forall_forall in Hu. apply Hu, elem_of_list_In, Hm. }
  fold d in H2, H5. subst w. exists h, l. split; [exact H1|]. split; [|exact H5].
  apply (skipped_all ndiv key h tss); [|exact H3|exact H4].
  rewrite <- H1 in Hu. apply Forall_app in Hu as [Hu _]. exact Hu.
Qed.
End conserved.

(** the names of everything sent, for every arithmetic *)
Lemma daemon_names `{NN : Num} E plugins G interval percent cfg max closes refuses config ls rs rws links addrs es :
  build_rules G true config [] = (ls, Ok rs) -> rules_of config rws -> length links = length ls -> 1000 <= interval ->
  let d := drun (S := mst) G (process_message E (mp_cls E plugins)) (flush E (mp_cls E plugins) interval percent) rs cfg max closes refuses
             (d_new addrs links mp_init) es in
  (forall m, In m (d_order d) -> exists ts, delivers G rws m ts) ->
  Forall Qname (map (fun c => snd (fst c)) (d_calls d)).
Proof.
  intros Hb Hr Hl Hi d Hm.
  destruct (daemon_refines E plugins G interval percent cfg max closes refuses config ls rs rws Hb Hr addrs links es Hl Hm) as (y & tss & evs & [H1 H2 H3 H4 H5 H6 H7 H8 H9]).
  fold d in H4. rewrite H4, H6. apply names_ok, H7, Hi.
Qed.

(** ** Counting what arrived *)
Section arrived.
Context `{NN : Num} {NL : NumLaw NN} {NX : NumExact NN} (E : env) (plugins : list factory) (G : engine).
Notation C := (mp_cls E plugins).
Context (interval percent : Z) (cfg : mon) (max : nat) (refuses : nat -> dp -> option exn).
Context (config : str) (ls : list lspec) (rs : list (rule G)) (rws : list rule_text) (links : list rlink).
Context (Hb : build_rules G true config [] = (ls, Ok rs)) (Hr : rules_of config rws) (Hl : length links = length ls).
Context (Hi : 1000 <= interval).
Notation step := (dstep (S := mst) G (process_message E C) (flush E C interval percent) rs cfg max false refuses).
Notation run := (drun (S := mst) G (process_message E C) (flush E C interval percent) rs cfg max false refuses).
Notation sent d := (map (fun c => snd (fst c)) (d_calls d)).

Lemma nsum_perm (l l' : list num) : l ≡ₚ l' -> nsum l = nsum l'.
Proof using NL NX. intros H. unfold nsum. apply fold_nadd_perm. exact H. Qed.
Lemma daemon_arrived addrs es out key :
  arrivals max (map (fun a => (a, [])) addrs) (nets es) out ->
  Forall (unmatched rws) (metrics_in cfg out ++ own es) ->
  let d := run (d_new addrs links mp_init) es in
  exists waiting accepted,
    picks (contribution key) (v_pending (d_srv d)) waiting /\
    picks (contribution key) (metrics_in cfg out ++ own es) accepted /\
    nadd (nadd (counts_in key (sent d))
      (nadd (counts_in key (flat_map pending (map snd (d_live d) ++ d_gone d)))
            (default n0 (p_counter (d_proc d) !! key)))) (nsum waiting)
    = nsum accepted.
Proof using NL NX Hb Hr Hl Hi.
  intros Ha Hu d.
  destruct (daemon_transparent E plugins G interval percent cfg max refuses config ls rs rws links Hb Hr Hl Hi addrs es out key Ha Hu) as (h & l & H1 & H2 & H3).
  fold d in H1, H3. cbv zeta in H1, H3.
  destruct (contributions_exist E plugins key (v_pending (d_srv d))) as [w Hw].
  destruct (contributions_exist E plugins key (metrics_in cfg out ++ own es)) as [a Hac].
  exists w, a. split; [exact Hw|]. split; [exact Hac|]. rewrite H3, <- nsum_app. apply nsum_perm.
  eapply picks_perm; [apply contribution_fun|exact H1| |exact Hac]. apply picks_join; assumption.
Qed.

(** a flush running alone, carbon accepting everything *)
Lemma gnext_grun {S} (g : gen S) : forall s, match gnext g s with
  | (s1, Yielded v g') => let '(s', l, o) := grun g' s1 in grun g s = (s', v :: l, o)
  | (s1, Finished) => grun g s = (s1, [], None)
  | (s1, Raised e) => grun g s = (s1, [], Some e)
  end.
Proof using Type.
  induction g as [|e|f IH|ms k IH] using gen_ind'; intros s; cbn [gnext grun]; try reflexivity.
  - specialize (IH s). destruct (f s) as [s' g']. apply IH.
  - destruct ms as [|v ms].
    + specialize (IH s). destruct (grun k s) as [[s' l] o]. cbn [app].
      destruct (gnext k s) as [s1 [v g'| |e]]; [destruct (grun g' s1) as [[s2 l2] o2]|..]; exact IH.
    + cbn [grun]. destruct (grun k s) as [[s' l] o]. reflexivity.
Qed.
Lemma alone l : forall d k g s', d_live d = [(k, g)] -> (forall n v, refuses n v = None) ->
  grun g (d_proc d) = (s', l, None) ->
  let d' := run d (repeat (DStep 0) (Datatypes.S (length l))) in
  d_live d' = [] /\ d_gone d' = d_gone d /\ d_proc d' = s' /\ sent d' = sent d ++ l /\ v_pending (d_srv d') = v_pending (d_srv d).
Proof using Type.
  clear Hb Hr Hl Hi.
  assert (Hcons : forall d e es, run d (e :: es) = run (step d e) es) by reflexivity.
  induction l as [|v l IH]; intros d k g s' Hlive Hrf Hg; cbv zeta.
  - cbn [length repeat drun fold_left dstep]; rewrite Hlive; cbn [lookup list_lookup].
    pose proof (gnext_grun g (d_proc d)) as H. rewrite Hg in H. destruct (gnext g (d_proc d)) as [s1 [v g'| |e]].
    + destruct (grun g' s1) as [[? ?] ?]. discriminate.
    + injection H as ->. cbn. rewrite app_nil_r. auto.
    + discriminate.
  - cbn [length]. change (repeat (DStep 0) (S (S (length l)))) with (DStep 0 :: repeat (DStep 0) (S (length l))). rewrite Hcons.
    pose proof (gnext_grun g (d_proc d)) as H. rewrite Hg in H.
    assert (Hstep : step d (DStep 0) = match gnext g (d_proc d) with
       | (p, Yielded v g') => Dm (d_conns d) (d_set_proc p (d_srv d)) (d_internal d) (d_order d) [(k, g')] (d_gone d) (d_begun d)
                                (d_calls d ++ [(k, v, None)]) (d_ended d)
       | _ => step d (DStep 0) end).
    { destruct (gnext g (d_proc d)) as [p [v' g'| |e]] eqn:Eg; try reflexivity.
      cbn [dstep]. rewrite Hlive. cbn [lookup list_lookup]. rewrite Eg, Hrf. reflexivity. }
    destruct (gnext g (d_proc d)) as [s1 [v' g'| |e]]; [|discriminate..].
    destruct (grun g' s1) as [[s2 l2] o2] eqn:E2. injection H as <- <- <- <-. rewrite Hstep.
    set (d1 := Dm _ _ _ _ _ _ _ _ _). destruct (IH d1 k g' s') as (I1 & I2 & I3 & I4 & I5); [reflexivity|exact Hrf|exact E2|].
    rewrite I1, I2, I3, I4, I5. unfold d1. cbn [d_live d_gone d_calls d_srv v_pending d_set_proc]. rewrite map_app, <- app_assoc. auto.
Qed.
End arrived.
