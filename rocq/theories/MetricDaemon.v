(** The assembled daemon with any rules at all: what the processor was given for each line,
    and what became of it. *)
From Verif Require Import Base StrFacts Num Env Stats Glob Metrics Gen GenFacts Processor
  LineSpec LineFacts FloatFacts ProcFacts ProcSpec ReceiveFacts ReceiveFacts2 ReceiveFacts3 PlugFacts
  Sched FlushInv FlushOk SchedFacts StepFacts SysRun Client Router RouterSpec RouterFacts RouterProps
  Server ServerSpec FrameFacts ServerFacts Daemon DaemonFacts MetricSpec MetricFacts MetricRun.

Section result.
Context `{NN : Num} {NL : NumLaw NN} (E : env) (plugins : list factory).
Notation C := (mp_cls E plugins).

Lemma one_part f : (length (split_on ":" f) =? 1)%nat = negb (has ":" f).
Proof.
  destruct (has ":" f) eqn:Eh; cbn [negb].
  - apply Nat.eqb_neq. intros Hl. apply has_In in Eh.
    pose proof (join_split_on ":" f) as Hj. pose proof (split_on_no_sep ":" f) as Hn.
    destruct (split_on ":" f) as [|w [|w' ws]]; simpl in Hl; try lia.
    cbn in Hj. subst w. inversion Hn; subst. contradiction.
  - apply has_not_In in Eh. rewrite split_on_word by auto. reflexivity.
Qed.
(** which metrics raise *)
Lemma handle_result t k fs (s : mst) : has_fields (t, k, fs) ->
  match snd (process_message E C (text_of (t, k, fs)) t k fs s) with
  | Ok _ => ~ bad_metric (t, k, fs)
  | Exn _ => bad_metric (t, k, fs) \/ ~ builtin t
  end.
Proof using NL.
  unfold has_fields. cbn [snd]. intros Hl. destruct fs as [|f0 l]; [cbn in Hl; lia|].
  rewrite process_message_handler. unfold now. set (m := text_of _). destruct (known_type C t) eqn:Ek.
  2:{ cbn. intros Hb. assert (Hbt : builtin t) by (inversion Hb; subst; unfold builtin; auto).
      assert (known_type C t = true) by (apply known_type_iff; left; exact Hbt). congruence. }
  unfold bnd. set (s1 := set_w _ s).
  assert (Hfin : forall s2 : mst, snd (finish_message E t (e_clock E (w_clk (p_w s))) s2) = Ok tt).
  { intros s2. pose proof (finish_frame E t (e_clock E (w_clk (p_w s))) s2) as Hf. cbn zeta in Hf. tauto. }
  cut (match snd (handler E C m t k (f0 :: l) s1) with Ok _ => ~ bad_metric (t, k, f0 :: l) | Exn _ => bad_metric (t, k, f0 :: l) \/ ~ builtin t end).
  { destruct (handler E C m t k (f0 :: l) s1) as [s2 [[]|e]]; cbn [snd]; [rewrite Hfin|]; auto. }
  destruct (str_eqb t (B "c")) eqn:Ec.
  { apply str_eqb_eq in Ec; subst t. rewrite handler_mp_counter by exact Hl.
    destruct l as [|f1 [|f2 [|f3 l]]]; cbn [length] in Hl; try lia; cbn [counter_parts].
    - destruct (float_of f0) as [v|]; [|cbn; intros Hb; inversion Hb].
      unfold counter_add. cbn [rate_of]. rewrite one_not_zero. cbn. intros Hb. inversion Hb.
    - destruct (float_of f0) as [v|] eqn:Ef.
      2:{ cbn. intros Hb. inversion Hb; subst; match goal with H : reads f0 _ |- _ => apply reads_iff in H; congruence end. }
      destruct (rate_match f2) as [g|] eqn:Eg.
      2:{ cbn. intros Hb. inversion Hb; subst; match goal with H : rate_text f2 _ |- _ => apply rate_match_spec in H; congruence end. }
      unfold counter_add. cbn [rate_of]. pose proof Ef as Ef'. apply reads_iff in Ef'. pose proof Eg as Eg'. apply rate_match_spec in Eg'.
      destruct (float_of g) as [r|] eqn:Er.
      + pose proof Er as Er'. apply reads_iff in Er'. destruct (neqb r n0) eqn:Ez; cbn.
        * left. eapply bm_zero; eassumption.
        * intros Hb. inversion Hb; subst; match goal with H : rate_text f2 _ |- _ => apply rate_match_spec in H; rewrite Eg in H; injection H as -> end.
          -- match goal with H : not_a_number _ |- _ => apply float_of_none in H; congruence end.
          -- match goal with H : reads _ _, Hz : neqb _ _ = true |- _ => idtac end.
             match goal with H : reads run _ |- _ => apply reads_iff in H; congruence end.
      + cbn. left. apply float_of_none in Er. eapply bm_rate; eassumption. }
  unfold handler. rewrite Ec.
  destruct (str_eqb t (B "ms")) eqn:Ems.
  { apply str_eqb_eq in Ems; subst t. unfold process_timer_metric. destruct (float_of f0); cbn; intros Hb; inversion Hb. }
  destruct (str_eqb t (B "g")) eqn:Eg.
  { apply str_eqb_eq in Eg; subst t. unfold process_gauge_metric. rewrite one_part, negb_involutive. destruct (float_of f0) as [d|] eqn:Ef.
    - assert (Hr : forall m', snd ((if has ":" f0 then fail m' else mp_compose_gauge k d) s1) = Ok tt) by (intros m'; destruct (has ":" f0); reflexivity).
      cbn [c_compose_gauge mp_cls]. rewrite Hr. intros Hb. inversion Hb; subst. match goal with H : not_a_number _ |- _ => apply float_of_none in H; congruence end.
    - pose proof Ef as Ef'. apply float_of_none in Ef'. destruct (has ":" f0) eqn:Eh; cbn.
      + intros Hb. inversion Hb; subst. apply has_In in Eh. contradiction.
      + left. apply bm_gauge; [exact Ef'|apply has_not_In; exact Eh]. }
  destruct (str_eqb t (B "m")) eqn:Em.
  { apply str_eqb_eq in Em; subst t. unfold process_meter_metric. rewrite one_part, negb_involutive. destruct (float_of f0) as [d|] eqn:Ef.
    - assert (Hr : forall m', snd ((if has ":" f0 then fail m' else compose_meter E (B "stats.meter") k d) s1) = Ok tt).
      { intros m'. destruct (has ":" f0); [reflexivity|]. generalize s1. intros s3. unfold compose_meter. unM. destruct (p_meter s3 !! k) eqn:Em'; cbn; rewrite ?Em', ?lookup_insert; reflexivity. }
      cbn [c_compose_meter mp_cls]. rewrite Hr. cbn [snd]. intros Hb. inversion Hb; subst. match goal with H : not_a_number _ |- _ => apply float_of_none in H; congruence end.
    - pose proof Ef as Ef'. apply float_of_none in Ef'. destruct (has ":" f0) eqn:Eh; cbn.
      + intros Hb. inversion Hb; subst. apply has_In in Eh. contradiction.
      + left. apply bm_meter; [exact Ef'|apply has_not_In; exact Eh]. }
  destruct (snd (process_plugin_metric E C t k (f0 :: l) s1)).
  - intros Hb. inversion Hb; subst; discriminate.
  - right. unfold builtin. intros Hx. destruct Hx as [->|[->|[->| ->]]]; discriminate.
Qed.
End result.

(** what one line does *)
Section line.
Context `{NN : Num} {NL : NumLaw NN} (E : env) (plugins : list factory) (G : engine).
Notation C := (mp_cls E plugins).
Notation inner := (process_message E C).
Context (config : str) (ls : list lspec) (rs : list (rule G)) (rws : list rule_text).
Context (Hb : build_rules G true config [] = (ls, Ok rs)) (Hr : rules_of config rws).

Lemma handed_cut out : forall (p p' : mst) r, handed inner out p p' r -> Forall has_fields out ->
  exists ms, cut out ms /\ p' = handle_all E plugins ms p.
Proof using NL.
  intros p p' r H. induction H as [p|t k fs ms p p1 p2 r Hp _ IH|t k fs ms p p1 e Hp]; intros Hf.
  - exists []. split; [constructor|reflexivity].
  - apply Forall_cons in Hf as [Hf1 Hf2]. destruct (IH Hf2) as (ms' & Hc & ->).
    pose proof (handle_result E plugins t k fs p Hf1) as Hres. rewrite Hp in Hres.
    exists ((t, k, fs) :: ms'). split; [apply cut_next; assumption|]. cbn [handle_all fold_left]. unfold handle_all. f_equal.
    unfold handle. cbn [fst snd]. rewrite Hp. reflexivity.
  - apply Forall_cons in Hf as [Hf1 Hf2]. pose proof (handle_result E plugins t k fs p Hf1) as Hres. rewrite Hp in Hres.
    exists [(t, k, fs)]. split; [apply cut_here; exact Hres|]. unfold handle_all, handle. cbn [fold_left fst snd]. rewrite Hp. reflexivity.
Qed.
Lemma cut_fields out ms : cut out ms -> Forall has_fields out -> Forall has_fields ms.
Proof. induction 1; intros Hf; [constructor|..]; apply Forall_cons in Hf as [Hf1 Hf2]; constructor; auto. Qed.
Lemma line_fields t k fs m out sent : typed_line m t k fs -> routes G 0 rws [(t, k, fs)] out sent -> Forall has_fields out.
Proof.
  intros Ht Hro. destruct (routes_fields G fs rws 0 _ _ _ Hro) as [Ho _]; [constructor; [reflexivity|constructor]|].
  eapply Forall_impl; [exact Ho|]. intros x Hx. unfold has_fields. rewrite Hx.
  apply typed_line_decode in Ht as (raw & Hd & _). eapply decode_len, Hd.
Qed.
Lemma hands_fields m ms : hands G rws m ms -> Forall has_fields ms.
Proof.
  intros [Hn|t k fs Ht Hn|t k fs out sent ms' Ht Hro Hc]; [constructor..|]. eapply cut_fields; [exact Hc|]. eapply line_fields; eassumption.
Qed.
Lemma routes_dec t k fs : (exists out sent, routes G 0 rws [(t, k, fs)] out sent) \/ ~ exists out sent, routes G 0 rws [(t, k, fs)] out sent.
Proof using Hb Hr.
  set (s := RSt (S := unit) tt (repeat (LTcp tf_new) (length ls)) []).
  destruct (whole_built G config ls rs rws s Hb Hr) as (adds & Hbu & Hok & Hl); [unfold s; cbn; apply repeat_length|].
  destruct (rules_run G rs [(t, k, fs)] s) as [s' [o|e]] eqn:Er.
  - left. destruct (proj1 (rules_run_iff G (fun _ _ _ _ => ret tt) true rws rs adds 0 [(t, k, fs)] s s' (survivors o) Hbu Hok Hl)) as (sent & Hs & _); eauto.
  - right. intros (out & sent & Hs).
    destruct (proj2 (rules_run_iff G (fun _ _ _ _ => ret tt) true rws rs adds 0 [(t, k, fs)] s (sends sent s) out Hbu Hok Hl)) as (o & Ho & _); [eauto|].
    congruence.
Qed.
Lemma line_hands m (s : @rst mst) : length (r_links s) = length ls ->
  exists ms, hands G rws m ms /\
    r_proc (S := mst) (fst (r_process (S := mst) G inner rs m s)) = handle_all E plugins ms (r_proc s).
Proof using NL Hb Hr.
  intros Hl. destruct (decode m) as [[[t raw] fs]|] eqn:Ed.
  2:{ exists []. split; [apply hd_bad; intros t k fs Ht; apply typed_line_decode in Ht as (raw & Hd & _); congruence|].
      unfold r_process. rewrite base_process_decode, Ed. reflexivity. }
  assert (Ht : typed_line m t (normalize_key raw) fs) by (apply typed_line_decode; eauto).
  destruct (routes_dec t (normalize_key raw) fs) as [(out & sent & Hro)|Hn].
  - destruct (process_route (S := mst) G inner _ _ _ _ s m t (normalize_key raw) fs _ _ Hb Hr Hl Ht Hro) as (s' & r & -> & Hh & _). cbn [fst].
    destruct (handed_cut out _ _ _ Hh) as (ms & Hc & Hp); [eapply line_fields; eassumption|].
    exists ms. split; [eapply hd_out; eassumption|exact Hp].
  - destruct (process_stuck (S := mst) G inner _ _ _ _ s m t (normalize_key raw) fs Hb Hr Hl Ht Hn) as (s' & e & -> & H).
    exists []. split; [eapply hd_stuck; eassumption|exact H].
Qed.
End line.

Section daemon.
Context `{NN : Num} {NL : NumLaw NN} (E : env) (plugins : list factory) (G : engine).
Notation C := (mp_cls E plugins).
Context (interval percent : Z) (cfg : mon) (max : nat) (closes : bool) (refuses : nat -> dp -> option exn).
Context (config : str) (ls : list lspec) (rs : list (rule G)) (rws : list rule_text).
Context (Hb : build_rules G true config [] = (ls, Ok rs)) (Hr : rules_of config rws).
Notation inner := (process_message E C).
Notation fl := (flush E C interval percent).
Notation step := (dstep (S := mst) G inner fl rs cfg max closes refuses).
Notation run := (drun (S := mst) G inner fl rs cfg max closes refuses).

(** what a daemon and a processor given metrics have in common *)
Record follows (d : @daemon NN mst) (y : @sys NN) (mss : list (list metric)) (es : list mevent) : Prop := {
  fo_st : d_proc d = y_st y;
  fo_live : map snd (d_live d) = y_live y;
  fo_gone : d_gone d = y_gone y;
  fo_out : map (fun c => snd (fst c)) (d_calls d) = y_out y;
  fo_links : length (r_links (v_proc (d_srv d))) = length ls;
  fo_run : y = mrun E plugins es sys_init;
  fo_proper : 1000 <= interval -> Forall proper es;
  fo_gives : gives es = concat mss;
  fo_order : Forall2 (hands G rws) (d_order d) mss }.

Lemma fo_line d y mss es m ks (s s' : @server (@rst mst)) : follows d y mss es ->
  v_proc s = v_proc (d_srv d) -> v_proc s' = fst (r_process (S := mst) G inner rs m (v_proc s)) ->
  exists y' mss' es', forall i, follows (Dm ks s' i (d_order d ++ [m]) (d_live d) (d_gone d) (d_begun d) (d_calls d) (d_ended d)) y' mss' es'.
Proof using NL Hb Hr.
  intros [H1 H2 H3 H4 H5 H6 H7 H8 H9] Hs Hs'.
  destruct (line_hands E plugins G config ls rs rws Hb Hr m (v_proc s)) as (ms & Hh & Hp); [rewrite Hs; exact H5|].
  exists (mrun E plugins (map MGive ms) y), (mss ++ [ms]), (es ++ map MGive ms). intros i. rewrite mrun_gives.
  split; unfold d_proc in *; cbn [d_srv d_live d_gone d_calls d_order y_st y_live y_gone y_out]; try assumption.
  - refine (eq_trans (f_equal r_proc Hs') (eq_trans Hp _)). rewrite Hs, H1. reflexivity.
  - refine (eq_trans (f_equal (fun p => length (r_links p)) Hs') _). apply (process_length (S := mst) G inner _ _ _ _ _ Hb). rewrite Hs. exact H5.
  - rewrite mrun_app, <- H6, mrun_gives. reflexivity.
  - intros Hi. apply Forall_app. split; [apply H7, Hi|]. clear. induction ms; constructor; [exact Logic.I|assumption].
  - rewrite gives_app, H8, gives_all, concat_app. cbn. rewrite app_nil_r. reflexivity.
  - apply Forall2_app; [exact H9|]. constructor; [exact Hh|constructor].
Qed.
(** a step of a flush *)
Lemma fo_flow d y mss es (evs : list event) d' : follows d y mss es ->
  (1000 <= interval -> Forall sane evs) -> (forall m, ~ In (Recv m) evs) ->
  let y' := sys_run E plugins evs y in
  d_proc d' = y_st y' -> map snd (d_live d') = y_live y' -> d_gone d' = y_gone y' ->
  map (fun c => snd (fst c)) (d_calls d') = y_out y' -> length (r_links (v_proc (d_srv d'))) = length ls ->
  d_order d' = d_order d -> follows d' y' mss (es ++ map MFlow evs).
Proof using Type.
  intros [H1 H2 H3 H4 H5 H6 H7 H8 H9] Hs Hn y' D1 D2 D3 D4 D5 D6.
  split; try assumption.
  - rewrite mrun_app, <- H6. unfold y'. clear. revert y. induction evs as [|e evs IH]; intros y; [reflexivity|]. cbn [map mrun sys_run fold_left]. apply IH.
  - intros Hi. apply Forall_app. split; [apply H7, Hi|]. specialize (Hs Hi). clear - Hs Hn.
    induction Hs as [|e evs He _ IH]; constructor; [|apply IH; intros m Hm; apply (Hn m); right; exact Hm].
    destruct e; [exfalso; eapply Hn; left; reflexivity|exact He..].
  - rewrite gives_app, H8. assert (gives (map MFlow evs) = []) as -> by (clear; unfold gives; induction evs; auto). rewrite app_nil_r. reflexivity.
  - rewrite D6. exact H9.
Qed.

Lemma fo_step d y mss es e : follows d y mss es -> exists y' mss' es', follows (step d e) y' mss' es'.
Proof using NL Hb Hr.
  intros Hs. destruct e as [e|m| |i l|i].
  - assert (Hquiet : forall ks s', v_proc s' = v_proc (d_srv d) ->
      exists y' mss' es', follows (Dm ks s' (d_internal d) (d_order d) (d_live d) (d_gone d) (d_begun d) (d_calls d) (d_ended d)) y' mss' es').
    { intros ks s' Hp. exists y, mss, es. destruct Hs as [H1 H2 H3 H4 H5 H6 H7 H8 H9].
      split; cbn; try assumption; [unfold d_proc in *; cbn; rewrite Hp; exact H1|rewrite Hp; exact H5]. }
    cbn [dstep] in *. destruct (sstep (r_process (S := mst) G inner rs) cfg max closes (d_conns d, d_srv d) e) as [ks s'] eqn:Es.
    destruct e as [a data|i data|i]; cbn [sstep] in Es.
    + injection Es as <- <-. rewrite app_nil_r. apply Hquiet. unfold received. destruct (str_eqb _ _); reflexivity.
    + rewrite app_nil_r. apply Hquiet. destruct (d_conns d !! i) as [k|]; [|injection Es as <- <-; reflexivity].
      unfold data_received in Es. destruct (k_open k); [|injection Es as <- <-; reflexivity].
      destruct (line_loop _ _ _ _ _ (d_srv d)) as [[s1 b] o] eqn:El. injection Es as _ <-. eapply loop_proc, El.
    + injection Es as <- <-. unfold run_call. destruct (v_pending (d_srv d) !! i) as [m|] eqn:Ep; [|rewrite app_nil_r; apply Hquiet; reflexivity].
      destruct (r_process (S := mst) G inner rs m (v_proc (d_srv d))) as [p r] eqn:Ei.
      edestruct (fo_line d y mss es m) as (y' & mss' & es' & H); [exact Hs|reflexivity| |do 3 eexists; apply H]. cbn [v_proc]. rewrite Ei. reflexivity.
  - cbn [dstep] in *. destruct (r_process (S := mst) G inner rs m (v_proc (d_srv d))) as [p r] eqn:Ei.
    edestruct (fo_line d y mss es m) as (y' & mss' & es' & H); [exact Hs|reflexivity| |do 3 eexists; apply H]. cbn [v_proc]. rewrite Ei. reflexivity.
  - do 3 eexists. eapply (fo_flow d y mss es [Start interval percent]); [exact Hs| | |destruct Hs..]; cbn [dstep d_srv d_live d_gone d_calls d_order sys_run fold_left sys_step y_st y_live y_gone y_out]; try assumption.
    + intros Hi. constructor; [exact Hi|constructor].
    + intros m [H|[]]; discriminate.
    + rewrite map_app, fo_live0. reflexivity.
    + reflexivity.
  - exists y, mss, es. destruct Hs as [H1 H2 H3 H4 H5 H6 H7 H8 H9]. split; cbn; try assumption.
    rewrite insert_length. exact H5.
  - cbn [dstep]. destruct (d_live d !! i) as [[k g]|] eqn:El; [|eauto].
    pose proof Hs as [H1 H2 H3 H4 H5 H6 H7 H8 H9].
    assert (Hy : y_live y !! i = Some g) by (rewrite <- H2, list_lookup_fmap, El; reflexivity).
    assert (Hst : sys_step E plugins y (Resume i) = match gnext g (y_st y) with
          | (s', Yielded d g') => Sys s' (<[i := g']> (y_live y)) (y_gone y) (y_out y ++ [d]) (y_exn y)
          | (s', Finished) => Sys s' (delete i (y_live y)) (y_gone y) (y_out y) (y_exn y)
          | (s', Raised x) => Sys s' (delete i (y_live y)) (y_gone y) (y_out y) (y_exn y ++ [x])
          end) by (cbn [sys_step]; rewrite Hy; reflexivity).
    assert (Hdel : forall p, map snd (delete i (d_live d)) = delete i (y_live y) /\ d_proc (Dm (d_conns d) (d_set_proc p (d_srv d)) (d_internal d) (d_order d) (d_live d) (d_gone d) (d_begun d) (d_calls d) (d_ended d)) = p).
    { intros p. split; [|reflexivity]. rewrite <- H2. clear. generalize (d_live d). intros l. revert i. induction l as [|z l IH]; intros [|i]; cbn; auto. f_equal. apply IH. }
    assert (Hok : forall evs, evs = [Resume i] \/ evs = [Resume i; Drop i] -> (1000 <= interval -> Forall sane evs) /\ (forall m, ~ In (Recv m) evs)).
    { intros evs Hev. destruct Hev as [->| ->].
      - split; [intros _; repeat constructor|]. intros m [H|[]]; discriminate.
      - split; [intros _; repeat constructor|]. intros m [H|[H|[]]]; discriminate. }
    rewrite H1 in *. destruct (gnext g (y_st y)) as [p [v g'| |x]] eqn:Eg.
    + destruct (refuses (length (d_calls d)) v) as [x|].
      * assert (Hrun : sys_run E plugins [Resume i; Drop i] y =
          Sys p (delete i (y_live y)) (y_gone y ++ [g']) (y_out y ++ [v]) (y_exn y)).
        { cbn [sys_run fold_left]. rewrite Hst. cbn [sys_step y_live y_st y_gone y_out y_exn].
          rewrite list_lookup_insert by (eapply lookup_lt_Some, Hy). f_equal.
          clear. generalize (y_live y). intros l. revert i. induction l as [|z l IH]; intros [|i]; cbn; auto. f_equal. apply IH. }
        do 3 eexists. eapply (fo_flow d y mss es [Resume i; Drop i]); [exact Hs|apply (Hok _ (or_intror eq_refl))|apply (Hok _ (or_intror eq_refl))|..];
          rewrite ?Hrun; cbn [d_srv d_live d_gone d_calls d_order y_st y_live y_gone y_out]; try assumption; try reflexivity.
        { apply (Hdel p). }
        { rewrite H3. reflexivity. }
        { rewrite map_app, H4. reflexivity. }
      * do 3 eexists. eapply (fo_flow d y mss es [Resume i]); [exact Hs|apply (Hok _ (or_introl eq_refl))|apply (Hok _ (or_introl eq_refl))|..];
          change (sys_run E plugins [Resume i] y) with (sys_step E plugins y (Resume i)); rewrite ?Hst;
          cbn [d_srv d_live d_gone d_calls d_order y_st y_live y_gone y_out]; try assumption; try reflexivity.
        { change (<[i := g']> (y_live y)) with (<[i := snd (k, g')]> (y_live y)). rewrite <- H2. apply (list_fmap_insert snd). }
        { rewrite map_app, H4. reflexivity. }
    + do 3 eexists. eapply (fo_flow d y mss es [Resume i]); [exact Hs|apply (Hok _ (or_introl eq_refl))|apply (Hok _ (or_introl eq_refl))|..];
        change (sys_run E plugins [Resume i] y) with (sys_step E plugins y (Resume i)); rewrite ?Hst;
        cbn [d_srv d_live d_gone d_calls d_order y_st y_live y_gone y_out]; try assumption; try reflexivity. apply (Hdel p).
    + do 3 eexists. eapply (fo_flow d y mss es [Resume i]); [exact Hs|apply (Hok _ (or_introl eq_refl))|apply (Hok _ (or_introl eq_refl))|..];
        change (sys_run E plugins [Resume i] y) with (sys_step E plugins y (Resume i)); rewrite ?Hst;
        cbn [d_srv d_live d_gone d_calls d_order y_st y_live y_gone y_out]; try assumption; try reflexivity. apply (Hdel p).
Qed.
Lemma daemon_follows addrs links evs : length links = length ls ->
  exists y mss es, follows (run (d_new addrs links mp_init) evs) y mss es.
Proof using NL Hb Hr.
  intros Hl.
  assert (H0 : exists y mss es, follows (d_new addrs links mp_init) y mss es).
  { exists sys_init, [], []. split; try reflexivity; try constructor. exact Hl. }
  revert H0. generalize (d_new addrs links (mp_init (NN := NN))). induction evs as [|e evs IH]; intros d (y & mss & es & H); [eauto|].
  cbn [drun fold_left]. change (fold_left step evs (step d e)) with (run (step d e) evs). apply IH. eapply fo_step, H.
Qed.
Lemma follows_fields d y mss es : follows d y mss es -> Forall has_fields (gives es).
Proof using Type.
  intros [_ _ _ _ _ _ _ -> H9]. induction H9 as [|m ms l mss Hh _ IH]; [constructor|]. cbn [concat]. apply Forall_app. split; [|exact IH].
  eapply hands_fields, Hh.
Qed.
End daemon.

Section conserved.
Context `{NN : Num} {NL : NumLaw NN} (E : env) (plugins : list factory) (G : engine).
Notation C := (mp_cls E plugins).
Context (interval percent : Z) (cfg : mon) (max : nat) (refuses : nat -> dp -> option exn).
Context (config : str) (ls : list lspec) (rs : list (rule G)) (rws : list rule_text) (links : list rlink).
Context (Hb : build_rules G true config [] = (ls, Ok rs)) (Hr : rules_of config rws) (Hl : length links = length ls).
Context (Hi : 1000 <= interval).
Notation run closes := (drun (S := mst) G (process_message E C) (flush E C interval percent) rs cfg max closes refuses).
Notation sent d := (map (fun c => snd (fst c)) (d_calls d)).

Lemma any_rules_conservation {NX : NumExact NN} closes addrs es key :
  let d := run closes (d_new addrs links mp_init) es in
  exists mss xs, Forall2 (hands G rws) (d_order d) mss /\ Forall2 (worth key) (concat mss) xs /\
    nadd (counts_in key (sent d))
      (nadd (counts_in key (flat_map pending (map snd (d_live d) ++ d_gone d)))
            (default n0 (p_counter (d_proc d) !! key)))
    = nsum xs.
Proof using NL Hb Hr Hl Hi.
  intros d. destruct (daemon_follows E plugins G interval percent cfg max closes refuses config ls rs rws Hb Hr addrs links es Hl) as (y & mss & evs & Hf).
  fold d in Hf. pose proof (follows_fields _ _ _ _ _ _ _ _ _ _ Hf) as Hff. destruct Hf as [H1 H2 H3 H4 H5 H6 H7 H8 H9].
  destruct (metric_conservation E plugins key evs (H7 Hi) Hff) as (xs & Hx & Hc). cbv zeta in Hc. rewrite <- H6 in Hc. rewrite H8 in Hx.
  exists mss, xs. split; [exact H9|]. split; [exact Hx|]. rewrite H2, H3, H1, H4. exact Hc.
Qed.
Lemma any_rules_arrived {NX : NumExact NN} addrs es out key :
  arrivals max (map (fun a => (a, [])) addrs) (nets es) out ->
  let d := run false (d_new addrs links mp_init) es in
  exists handled mss xs,
    handled ++ v_pending (d_srv d) ≡ₚ metrics_in cfg out ++ own es /\
    Forall2 (hands G rws) handled mss /\ Forall2 (worth key) (concat mss) xs /\
    nadd (counts_in key (sent d))
      (nadd (counts_in key (flat_map pending (map snd (d_live d) ++ d_gone d)))
            (default n0 (p_counter (d_proc d) !! key)))
    = nsum xs.
Proof using NL Hb Hr Hl Hi.
  intros Ha d. destruct (any_rules_conservation false addrs es key) as (mss & xs & H1 & H2 & H3).
  exists (d_order d), mss, xs. split; [|auto].
  destruct (daemon_network G (process_message E C) (flush E C interval percent) rs cfg max refuses addrs links mp_init es out Ha) as [_ Hp]. exact Hp.
Qed.
Lemma any_rules_names (al : str -> Prop) closes addrs es : (forall s, alpha s -> al s) -> (forall a b, al a -> al b -> al (a ++ b)) ->
  let d := run closes (d_new addrs links mp_init) es in
  (forall m ms t k fs, In m (d_order d) -> hands G rws m ms -> In (t, k, fs) ms -> al k) ->
  Forall (QnameG al) (sent d).
Proof using NL Hb Hr Hl Hi.
  intros A1 A2 d Hm. destruct (daemon_follows E plugins G interval percent cfg max closes refuses config ls rs rws Hb Hr addrs links es Hl) as (y & mss & evs & Hf).
  fold d in Hf. pose proof (follows_fields _ _ _ _ _ _ _ _ _ _ Hf) as Hff. destruct Hf as [H1 H2 H3 H4 H5 H6 H7 H8 H9].
  rewrite H4, H6. apply names_moved; [exact A1|exact A2|apply H7, Hi|].
  rewrite Forall_forall in Hff |- *. intros x Hx. split; [apply Hff, Hx|]. rewrite H8 in Hx. clear - Hm H9 Hx.
  assert (Hin : forall ms, In ms mss -> exists m, In m (d_order d) /\ hands G rws m ms).
  { clear Hx Hm. revert H9. generalize (d_order d). intros l0 H9. induction H9 as [|m ms l mss Hh _ IH]; intros ms' Hn; [destruct Hn|]. destruct Hn as [<-|Hn]; [exists m; split; [left; reflexivity|exact Hh]|].
    destruct (IH _ Hn) as (m' & ? & ?). exists m'. split; [right; assumption|assumption]. }
  apply elem_of_list_In, in_concat in Hx as (ms & Hms & Hx). destruct (Hin ms Hms) as (m & Hm1 & Hm2).
  destruct x as [[t k] fs]. cbn [fst snd]. eapply Hm; eassumption.
Qed.
End conserved.
