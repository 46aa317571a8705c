(** The logging processor sends what the configurable processor sends. *)
From Verif Require Import Base StrFacts Num NumFacts Env Stats Glob Metrics Gen GenFacts Processor Configurable
  LineSpec LineFacts FloatFacts ProcFacts ProcSpec ReceiveFacts Sched StepFacts CSched ConfFacts.

Section log.
Context `{NN : Num} (E : env) (prefix internal : str) (plugins : list factory).
Notation C := (cp_cls E prefix internal plugins).

(** methods that neither read nor write the log *)
Definition mfree {A} (f : M cst A) : Prop := forall x s, f (set_info x s) = (set_info x (fst (f s)), snd (f s)).
Lemma mfree_bnd {A B} (f : M cst A) (k : A -> M cst B) : mfree f -> (forall a, mfree (k a)) -> mfree (bnd f k).
Proof.
  intros Hf Hk x s. unfold bnd. rewrite Hf. destruct (f s) as [s1 [a|e]]; cbn [fst snd]; [apply Hk|reflexivity].
Qed.
Lemma mfree_raise {A} e : mfree (raise e : M cst A).
Proof. intros x s. reflexivity. Qed.
Lemma mfree_fail m : mfree (fail m : M cst unit).
Proof. intros x s. reflexivity. Qed.
Ltac one := intros x [? ? ? ? ? ? ? ? ? ? ? ?]; unfold mod_; cbn.
Lemma mfree_compose_timer k d : mfree (cp_compose_timer E prefix k d).
Proof.
  apply mfree_bnd; [|intros []]; one; destruct (_ !! k); try reflexivity.
  destruct (timer_update E t d p_w). reflexivity.
Qed.
Lemma mfree_compose_counter k v : mfree (cp_compose_counter prefix k v).
Proof. one. reflexivity. Qed.
Lemma mfree_compose_gauge k v : mfree (cp_compose_gauge prefix k v).
Proof. one. reflexivity. Qed.
Lemma mfree_compose_meter k v : mfree (compose_meter E prefix k v : M cst unit).
Proof. apply mfree_bnd; [|intros []]; one; destruct (_ !! k); reflexivity. Qed.
Lemma mfree_plugin t k items : mfree (process_plugin_metric E C t k items).
Proof.
  one. unfold process_plugin_metric, bnd, get_, ret, raise. cbn.
  destruct (p_plug !! k) as [q|] eqn:Eq; cbn.
  - rewrite Eq. destruct (plug_process E q items p_w) as [[q' r] w]. reflexivity.
  - destruct (plugin_table plugins !! t) as [f|]; cbn; [|reflexivity].
    destruct (build_metric E f prefix k p_w) as [[q|e] w]; cbn; [|reflexivity].
    rewrite lookup_insert. destruct (plug_process E q items w) as [[q' r] w']. reflexivity.
Qed.
Lemma mfree_finish t x0 : mfree (finish_message E t x0 : M cst unit).
Proof.
  apply mfree_bnd; [|intros []; apply mfree_bnd; [|intros a]]; one; try reflexivity. destruct (_ !! t); reflexivity.
Qed.
Lemma mfree_process_message m t k fs : mfree (process_message E C m t k fs).
Proof.
  apply mfree_bnd; [one; reflexivity|]. intros start. destruct fs as [|f0 fs]; [apply mfree_raise|].
  repeat match goal with |- mfree (if ?b then _ else _) => destruct b end.
  - apply mfree_bnd; [|intros []; apply mfree_finish]. cbn. destruct (float_of f0); [apply mfree_compose_counter|apply mfree_fail].
  - apply mfree_bnd; [|intros []; apply mfree_finish]. unfold process_timer_metric. destruct (float_of f0); [apply mfree_compose_timer|apply mfree_fail].
  - apply mfree_bnd; [|intros []; apply mfree_finish]. unfold process_gauge_metric. destruct (negb _); [apply mfree_fail|].
    destruct (float_of f0); [apply mfree_compose_gauge|]. apply mfree_bnd; [apply mfree_fail|intros []; apply mfree_raise].
  - apply mfree_bnd; [|intros []; apply mfree_finish]. unfold process_meter_metric. destruct (negb _); [apply mfree_fail|].
    destruct (float_of f0); [apply mfree_compose_meter|]. apply mfree_bnd; [apply mfree_fail|intros []; apply mfree_raise].
  - apply mfree_bnd; [apply mfree_plugin|intros []; apply mfree_finish].
  - apply mfree_fail.
Qed.

(** what the logging processor does with a line *)
Definition log_in (m : str) : list logent := match decode m with Some _ => [LIn m] | None => [] end.
Lemma lp_process_sim m x s : lp_process E C m (set_info x s) =
  (set_info (log_in m ++ x) (fst (process E C m s)), snd (process E C m s)).
Proof.
  unfold lp_process, log_in. rewrite base_process_decode, process_decode. destruct (decode m) as [[[t k] fs]|]; [|apply mfree_fail].
  unfold lp_process_message, bnd at 1, mod_. cbn [fst snd]. unfold log_ent. cbn [p_info set_info app].
  change (set_info (LIn m :: x) (set_info x s)) with (set_info (LIn m :: x) s). apply mfree_process_message.
Qed.

(** generators that neither read nor write the log *)
Fixpoint gfree (g : gen cst) : Prop :=
  match g with
  | GRet | GRaise _ => True
  | GAct f => forall x s, f (set_info x s) = (set_info x (fst (f s)), snd (f s)) /\ gfree (snd (f s))
  | GEmit _ k => gfree k
  end.
Lemma gnext_log g : forall x s, gfree g ->
  match gnext g s with
  | (s1, Yielded d g1) => gfree g1 /\ gnext (glog g) (set_info x s) = (set_info (LOut d :: x) s1, Yielded d (GEmit [] (glog g1)))
  | (s1, Finished) => gnext (glog g) (set_info x s) = (set_info x s1, Finished)
  | (s1, Raised e) => gnext (glog g) (set_info x s) = (set_info x s1, Raised e)
  end.
Proof.
  induction g as [|e|f IH|ms k IH] using gen_ind'; intros x s Hg.
  - reflexivity.
  - reflexivity.
  - cbn [gfree] in Hg. destruct (Hg x s) as [H1 H2]. cbn [gnext glog]. rewrite H1. specialize (IH s x (fst (f s)) H2).
    destruct (f s) as [s1 g1]. cbn [fst snd] in *. exact IH.
  - cbn [gfree] in Hg. destruct ms as [|d ms]; cbn [gnext glog emit_logged]; [apply IH; exact Hg|]. split; [exact Hg|reflexivity].
Qed.
Definition vfree {X} (visit : X -> cst -> cst * res (option (list dp * (cst -> cst * res unit)))) : Prop :=
  forall y x s, visit y (set_info x s) = (set_info x (fst (visit y s)), snd (visit y s)) /\
    forall ms post, snd (visit y s) = Ok (Some (ms, post)) -> mfree post.
Lemma giter_free {X} (xs : list X) u visit k : (forall x s, u (set_info x s) = u s) -> vfree visit -> (forall n, gfree (k n)) ->
  forall n, gfree (giter xs u visit n k).
Proof.
  intros Hu Hv Hk. induction xs as [|y xs IH]; intros n; cbn [giter gfree]; intros x s; rewrite Hu.
  - destruct (u s); cbn; auto.
  - destruct (negb (u s)); [cbn; auto|]. destruct (Hv y x s) as [H1 H2]. rewrite H1.
    destruct (visit y s) as [s' [[[ms post]|]|e]]; cbn [fst snd gfree] in *; try (split; [reflexivity|auto]).
    intros x2 s2. rewrite (H2 ms post eq_refl x2 s2). destruct (post s2) as [s3 [[]|e]]; cbn [fst snd gfree]; auto.
Qed.
Definition loop_free (loop : (Z -> gen cst) -> gen cst) : Prop := forall k, (forall n, gfree (k n)) -> gfree (loop k).
Lemma gdict_free {V} (d : cst -> gmap str V) visit : (forall x s, d (set_info x s) = d s) ->
  (forall key v, vfree (fun (_ : unit) s => visit key v s)) -> loop_free (gdict E d visit).
Proof.
  intros Hd Hv k Hk. unfold gdict. cbn [gfree]. intros x s. rewrite Hd. change (p_w (set_info x s)) with (p_w s).
  destruct (dict_keys E (d s) (p_w s)) as [ks w]. cbn [fst snd]. split; [reflexivity|].
  apply giter_free; [intros; rewrite Hd; reflexivity| |exact Hk].
  intros key x1 s1. rewrite Hd. destruct (d s1 !! key) as [v|]; [apply (Hv key v tt)|]. split; [reflexivity|discriminate].
Qed.
Lemma timed_free loop k : loop_free loop -> (forall n x, gfree (k n x)) -> gfree (timed E loop k).
Proof.
  intros Hl Hk. unfold timed, now. cbn [gfree]. intros x s. cbn [fst snd]. split; [reflexivity|]. apply Hl. intros n x1 s1. cbn [fst snd]. split; [reflexivity|apply Hk].
Qed.
Lemma no_post_free : mfree (no_post : cst -> cst * res unit).
Proof. intros x s. reflexivity. Qed.
Lemma cflush_free i p : gfree (flush E C i p).
Proof.
  unfold flush, now. cbn [gfree]. intros x s. cbn [fst snd]. change (p_w (set_info x s)) with (p_w s). split; [reflexivity|].
  destruct (ntrunc _) as [ts|e]; [|exact Logic.I].
  apply timed_free; [|intros nc dc; apply timed_free; [|intros nt dt; apply timed_free; [|intros ng dg; apply timed_free; [|intros nm dm; apply timed_free; [|intros np dpl]]]]].
  - apply gdict_free; [reflexivity|]. intros key c [] x1 s1. cbn beta. destruct (counter_report c ts); cbn [fst snd]; (split; [reflexivity|]).
    + intros ms post [= <- <-]. apply no_post_free.
    + discriminate.
  - apply gdict_free; [reflexivity|]. intros key t [] x1 s1. cbn beta. destruct (timer_report t ts) as [t' [ms|e]]; cbn [fst snd]; (split; [reflexivity|]).
    + intros ms' post [= <- <-]. apply no_post_free.
    + discriminate.
  - apply gdict_free; [reflexivity|]. intros key g [] x1 s1. cbn [fst snd]. split; [reflexivity|]. intros ms' post [= <- <-]. apply no_post_free.
  - apply gdict_free; [reflexivity|]. intros key t [] x1 s1. cbn beta. destruct (meter_report t ts) as [t' [ms|e]]; cbn [fst snd]; (split; [reflexivity|]).
    + intros ms' post [= <- <-]. apply no_post_free.
    + discriminate.
  - apply gdict_free; [reflexivity|]. intros key q [] x1 s1. cbn beta. change (p_w (set_info x1 s1)) with (p_w s1).
    destruct (plug_flush E q ts (p_w s1)) as [[q' [ms|e]] w]; cbn [fst snd]; (split; [reflexivity|]).
    + intros ms' post [= <- <-]. apply no_post_free.
    + discriminate.
  - unfold flush_summary. cbn [gfree]. intros x1 s1. change (p_w (set_info x1 s1)) with (p_w s1).
    destruct (dict_keys E _ (p_w s1)) as [names w]. cbn [fst snd]. split; [reflexivity|].
    apply giter_free; [reflexivity| |].
    + intros name x2 s2. destruct (list_to_map _ !! name) as [[ev du]|]; cbn [summary_kind fst snd]; [|split; [reflexivity|discriminate]].
      split; [reflexivity|]. intros ms post [= <- <-]. intros x3 s3. reflexivity.
    + intros _. cbn [gfree]. intros x2 s2. cbn [fst snd]. split; [reflexivity|]. apply gdict_free; [reflexivity| |].
      * intros t du [] x3 s3. unfold summary_type. change (p_btype (set_info x3 s3)) with (p_btype s3).
        destruct (p_btype s3 !! t) as [n|]; cbn [fst snd]; (split; [reflexivity|]); [|discriminate].
        intros ms post [= <- <-]. intros x4 s4. change (p_btype (set_info x4 s4)) with (p_btype s4). destruct (p_btype s4 !! t); reflexivity.
      * intros _. cbn [gfree]. intros x3 s3. split; [reflexivity|exact Logic.I].
Qed.

(** ** any schedule *)
Definition lreceive (m : str) (s : cst) : cst := fst (lp_process E C m s).
Notation plain := (gsys_run (creceive E prefix internal plugins) (cflush E prefix internal plugins)).
Notation logged := (gsys_run lreceive (lp_flush E C)).
Definition lrel (g gl : gen cst) : Prop := gfree g /\ (gl = glog g \/ gl = GEmit [] (glog g)).
Record sim (y y' : gsys) (x : list logent) : Prop := {
  sim_st : g_st y' = set_info x (g_st y);
  sim_live : Forall2 lrel (g_live y) (g_live y');
  sim_out : g_out y' = g_out y;
  sim_exn : g_exn y' = g_exn y }.
Lemma lnext g gl x s : lrel g gl ->
  match gnext g s with
  | (s1, Yielded d g1) => exists gl1, lrel g1 gl1 /\ gnext gl (set_info x s) = (set_info (LOut d :: x) s1, Yielded d gl1)
  | (s1, Finished) => gnext gl (set_info x s) = (set_info x s1, Finished)
  | (s1, Raised e) => gnext gl (set_info x s) = (set_info x s1, Raised e)
  end.
Proof.
  intros [Hg Hgl]. pose proof (gnext_log g x s Hg) as H. destruct (gnext g s) as [s1 [d g1| |e]].
  - destruct H as [H1 H2]. exists (GEmit [] (glog g1)). split; [split; [exact H1|right; reflexivity]|]. destruct Hgl as [->| ->]; exact H2.
  - destruct Hgl as [->| ->]; exact H.
  - destruct Hgl as [->| ->]; exact H.
Qed.
Lemma Forall2_delete' {A B} (P : A -> B -> Prop) l l' i : Forall2 P l l' -> Forall2 P (delete i l) (delete i l').
Proof. intros H. revert i. induction H; intros [|i]; cbn; auto. Qed.
Notation pstep := (gsys_step (creceive E prefix internal plugins) (cflush E prefix internal plugins)).
Notation lstep := (gsys_step lreceive (lp_flush E C)).
Lemma sim_step y y' x e : sim y y' x ->
  exists x' new, sim (pstep y e) (lstep y' e) (x' ++ x) /\ g_out (pstep y e) = g_out y ++ new /\
    x' = match e with Recv m => log_in m | _ => map LOut new end /\ (length new <= 1)%nat.
Proof.
  intros [H1 H2 H3 H4]. unfold cst in *. destruct e as [m|i p|i|i]; cbn [gsys_step].
  - exists (log_in m), []. rewrite app_nil_r. split; [|cbn [length map app]; auto]. split; cbn [g_st g_live g_out g_exn]; auto.
    transitivity (lreceive m (set_info x (g_st y))); [f_equal; exact H1|]. unfold lreceive, creceive. rewrite lp_process_sim. reflexivity.
  - exists [], []. rewrite app_nil_r. split; [|cbn [length map app]; auto]. split; cbn [g_st g_live g_out g_exn]; auto. apply Forall2_app; [exact H2|]. constructor; [|constructor].
    split; [apply cflush_free|left; reflexivity].
  - destruct (g_live y !! i) as [g|] eqn:Eg.
    + destruct (Forall2_lookup_l _ _ _ _ _ H2 Eg) as (gl & Egl & Hr). rewrite Egl.
      assert (Hst : gnext gl (g_st y') = gnext gl (set_info x (g_st y))) by (f_equal; exact H1). rewrite Hst. pose proof (lnext g gl x (g_st y) Hr) as Hn. unfold cst in *.
      destruct (gnext g (g_st y)) as [s1 [d g1| |e]].
      * destruct Hn as (gl1 & Hr1 & ->). exists [LOut d], [d]. split; [|cbn [length map app]; auto]. split; cbn [g_st g_live g_out g_exn]; auto.
        -- apply Forall2_insert; assumption.
        -- rewrite H3. reflexivity.
      * rewrite Hn. exists [], []. rewrite app_nil_r. split; [|cbn [length map app]; auto]. split; cbn [g_st g_live g_out g_exn]; auto. apply Forall2_delete'. exact H2.
      * rewrite Hn. exists [], []. rewrite app_nil_r. split; [|cbn [length map app]; auto]. split; cbn [g_st g_live g_out g_exn]; auto; [apply Forall2_delete'; exact H2|congruence].
    + assert (Eg' : g_live y' !! i = None) by (apply lookup_ge_None; rewrite <- (Forall2_length _ _ _ H2); apply lookup_ge_None; exact Eg). rewrite Eg'. exists [], []. rewrite app_nil_r. split; [|cbn [length map app]; auto]. split; auto.
  - exists [], []. rewrite app_nil_r. split; [|cbn [length map app]; auto]. split; cbn [g_st g_live g_out g_exn]; auto. apply Forall2_delete'. exact H2.
Qed.
Lemma sim_run es : sim (plain es (gsys_init cp_init)) (logged es (gsys_init cp_init)) (p_info (g_st (logged es (gsys_init cp_init)))).
Proof.
  induction es as [|e es IH] using rev_ind.
  - split; try reflexivity. constructor.
  - unfold gsys_run in *. rewrite !fold_left_app. cbn [fold_left].
    destruct (sim_step _ _ _ e IH) as (x' & new & Hs & _). pose proof (f_equal p_info (sim_st _ _ _ Hs)) as Hx. cbn [p_info set_info] in Hx.
    unfold cst in *. rewrite Hx. exact Hs.
Qed.
(** C30 *)
Lemma plain_info es : p_info (g_st (plain es (gsys_init cp_init))) = [].
Proof.
  apply (gsys_history (creceive E prefix internal plugins) (cflush E prefix internal plugins) (fun s s' => p_info s' = p_info s)
    (fun _ s => p_info s = []) cp_init).
  - intros i p. assert (Hg : forall g, gfree g -> stepG (fun s s' => p_info s' = p_info s) g).
    { induction g as [|e|f IH|ms k IH] using gen_ind'; cbn [gfree stepG]; auto. intros H s. destruct (H (p_info s) s) as [H1 H2].
      split; [|apply IH; exact H2]. assert (Hs : set_info (p_info s) s = s) by (destruct s; reflexivity). rewrite Hs in H1.
      rewrite H1. reflexivity. }
    apply Hg. apply cflush_free.
  - reflexivity.
  - intros a b c H1 H2. congruence.
  - reflexivity.
  - intros ls m s H. unfold creceive. rewrite process_decode. destruct (decode m) as [[[t k] fs]|]; [|exact H].
    pose proof (mfree_process_message m t (normalize_key k) fs (p_info s) s) as Hm.
    assert (Hs : set_info (p_info s) s = s) by (destruct s; reflexivity). rewrite Hs in Hm. rewrite Hm. exact H.
  - intros ls s s' H1 H2. congruence.
Qed.
Lemma transparent es : let y := plain es (gsys_init cp_init) in let y' := logged es (gsys_init cp_init) in
  g_out y' = g_out y /\ g_exn y' = g_exn y /\ g_st y = set_info [] (g_st y').
Proof.
  cbn zeta. destruct (sim_run es) as [H1 H2 H3 H4]. split; [exact H3|]. split; [exact H4|]. unfold cst in *. rewrite H1.
  pose proof (plain_info es) as Hi. unfold cst in *.
  assert (Hs : forall a b (s : pst timer counter (gmap str gauge)), p_info s = b -> s = set_info b (set_info a s)) by (intros a b [] <-; reflexivity).
  apply Hs. exact Hi.
Qed.
(** the log, oldest entry first *)
Definition written (s : cst) : list logent := rev (p_info s).
Lemma log_step es e : let y' := logged es (gsys_init cp_init) in let y2 := logged (es ++ [e]) (gsys_init cp_init) in
  exists new, g_out y2 = g_out y' ++ new /\
    written (g_st y2) = written (g_st y') ++ match e with Recv m => log_in m | _ => map LOut new end.
Proof.
  cbn zeta. pose proof (sim_run es) as Hs. destruct (sim_step _ _ _ e Hs) as (x' & new & Hs' & Ho & Hx & Hl).
  exists new. unfold gsys_run in *. rewrite !fold_left_app. cbn [fold_left]. split.
  - etransitivity; [exact (sim_out _ _ _ Hs')|]. etransitivity; [exact Ho|]. f_equal. symmetry. exact (sim_out _ _ _ Hs).
  - unfold written. pose proof (sim_st _ _ _ Hs') as Hst. unfold cst in *. rewrite Hst; clear Hst. cbn [p_info set_info]. rewrite rev_app_distr. f_equal. rewrite Hx.
    destruct e as [m|i p|i|i]; [unfold log_in; destruct (decode m); reflexivity|..];
      (destruct new as [|d [|]]; [reflexivity|reflexivity|cbn in Hl; lia]).
Qed.
Lemma log_step_spec es e :
  let run es := logged es (gsys_init cp_init) in
  exists new entries, g_out (run (es ++ [e])) = g_out (run es) ++ new /\
    written (g_st (run (es ++ [e]))) = written (g_st (run es)) ++ entries /\
    match e with
    | Recv m => (exists key fields, line_of m key fields) /\ entries = [LIn m] \/
                (~ exists key fields, line_of m key fields) /\ entries = []
    | _ => entries = map LOut new
    end.
Proof.
  cbn zeta. destruct (log_step es e) as (new & H1 & H2). exists new. eexists. split; [exact H1|]. split; [exact H2|].
  destruct e as [m|i p|i|i]; try reflexivity. unfold log_in. destruct (decode m) as [[[t k] fs]|] eqn:Ed.
  - left. split; [|reflexivity]. apply decode_Some in Ed as [Ed _]. eauto.
  - right. split; [|reflexivity]. intros (k & fs & Hl). apply (proj1 (decode_None m) Ed k fs Hl).
Qed.
Lemma log_empty : written cp_init = [].
Proof. reflexivity. Qed.
End log.

(** ** get_metric_names (C85) *)
From Verif Require Import ConfInv ConfDerived.
Section names.
Context `{NN : Num} (E : env) (prefix internal : str) (plugins : list factory).
Notation creached := (creached E prefix internal plugins).
Lemma names_raise es key v : last_value (B "g") key (lines es) v -> length key <> 2%nat ->
  cp_metric_names (creached es) = Exn ValueError.
Proof.
  intros Hv Hl. apply (gauge_last E prefix internal plugins) in Hv. unfold cp_metric_names.
  destruct (forallb _ _) eqn:Ef; [|reflexivity]. exfalso. apply Hl. rewrite forallb_forall in Ef.
  specialize (Ef key). apply Nat.eqb_eq. apply Ef. apply elem_of_list_In. apply elem_of_list_fmap. eexists (_, _). split; [reflexivity|].
  apply elem_of_map_to_list. exact Hv.
Qed.
Lemma timer_domain es key : key ∈ dom (p_timer (creached es)) <-> exists v, last_value (B "ms") key (lines es) v.
Proof.
  destruct (ctimer_history E prefix internal plugins es key) as (all & Hp & Ht). rewrite elem_of_dom.
  destruct (p_timer (creached es) !! key) as [t|].
  - destruct Ht as [Hne _]. split; [|eauto]. intros _. destruct (last all) as [v|] eqn:El; [|apply last_None in El; contradiction].
    exists v, all. auto.
  - split; [intros [x H]; discriminate|]. intros (v & l & Hl & Hlast). rewrite (picks_fun _ _ _ _ (value_line_fun _ key) Hl Hp), Ht in Hlast. discriminate.
Qed.
Lemma counter_domain es key : key ∈ dom (p_counter (creached es)) <-> exists v, last_value (B "c") key (lines es) v.
Proof.
  rewrite elem_of_dom. split.
  - intros [c H]. exists (ct_count c). apply (counter_last E prefix internal plugins). rewrite H. f_equal. apply (counter_shape E prefix internal plugins es key c H).
  - intros [v H]. apply (counter_last E prefix internal plugins) in H. eauto.
Qed.
Lemma names_else es : (forall key v, last_value (B "g") key (lines es) v -> length key = 2%nat) ->
  exists names, cp_metric_names (creached es) = Ok names /\
    forall n, n ∈ names <->
      (exists v, last_value (B "ms") n (lines es) v) \/ (exists v, last_value (B "c") n (lines es) v) \/
      (exists a b v, n = [b] /\ last_value (B "g") [a; b] (lines es) v) \/
      is_Some (p_meter (creached es) !! n) \/ is_Some (p_plug (creached es) !! n).
Proof.
  intros Hg. unfold cp_metric_names.
  assert (Hf : forallb (fun k => (length k =? 2)%nat) (map_to_list (p_gauge (creached es))).*1 = true).
  { apply forallb_forall. intros k Hk. apply elem_of_list_In in Hk. apply elem_of_list_fmap in Hk as ([k' g] & -> & Hk).
    apply elem_of_map_to_list in Hk. apply Nat.eqb_eq. apply (Hg k' (ga_value g)). apply (gauge_last E prefix internal plugins). rewrite Hk. f_equal. apply (gauge_shape E prefix internal plugins es k' g Hk). }
  rewrite Hf. eexists. split; [reflexivity|]. intros n.
  rewrite !elem_of_union, timer_domain, counter_domain, !elem_of_dom.
  assert (Hin : n ∈ (list_to_set (map (fun k => drop 1 k) (map_to_list (p_gauge (creached es))).*1) : gset str) <->
    exists a b v, n = [b] /\ last_value (B "g") [a; b] (lines es) v).
  { rewrite elem_of_list_to_set. split.
    - intros H. apply elem_of_list_In in H. apply in_map_iff in H as (k & Hn & H). apply elem_of_list_In in H. apply elem_of_list_fmap in H as ([k' g] & -> & H).
      apply elem_of_map_to_list in H. cbn [fst] in *.
      assert (Hl : last_value (B "g") k' (lines es) (ga_value g)) by (apply (gauge_last E prefix internal plugins); rewrite H; f_equal; apply (gauge_shape E prefix internal plugins es k' g H)).
      pose proof (Hg _ _ Hl) as H2. destruct k' as [|a [|b [|]]]; try discriminate. exists a, b, (ga_value g). split; [symmetry; exact Hn|exact Hl].
    - intros (a & b & v & -> & Hl). apply elem_of_list_In, in_map_iff. exists [a; b]. split; [reflexivity|]. apply elem_of_list_In, elem_of_list_fmap.
      eexists (_, _). split; [reflexivity|]. apply elem_of_map_to_list. apply (gauge_last E prefix internal plugins). exact Hl. }
  rewrite Hin. tauto.
Qed.
End names.
