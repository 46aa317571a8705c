(** The daemon with any processor class behind the router: what the processor holds is what
    CSched.v says of the lines the router handed over, whatever else happens. *)
From Verif Require Import Base StrFacts Num Env Stats Metrics Gen GenFacts Processor
  LineSpec LineFacts ProcFacts ProcSpec ReceiveFacts Sched StepFacts CSched
  Client Router RouterSpec RouterFacts RouterProps Server ServerSpec ServerFacts Daemon DaemonFacts.
Open Scope Z_scope.

Section any.
Context `{NN : Num} {TM CM GM : Type} (E : env) (C : @cls NN TM CM GM) (G : engine).
Notation st := (pst TM CM GM).
Context (interval percent : Z) (cfg : mon) (max : nat) (closes : bool) (refuses : nat -> dp -> option exn).
Context (config : str) (ls : list lspec) (rs : list (rule G)) (rws : list rule_text).
Context (Hb : build_rules G true config [] = (ls, Ok rs)) (Hr : rules_of config rws).
Notation inner := (process_message E C).
Notation fl := (flush E C interval percent).
Notation step := (dstep (S := st) G inner fl rs cfg max closes refuses).
Notation run := (drun (S := st) G inner fl rs cfg max closes refuses).
Definition grecv (m : str) (s : st) : st := fst (process E C m s).
Notation gstep := (gsys_step grecv (fun i p => flush E C i p)).
Notation grun_ := (gsys_run grecv (fun i p => flush E C i p)).

Lemma recvs_run ts : forall y, grun_ (map Recv ts) y = GSys (fold_left (fun s m => grecv m s) ts (g_st y)) (g_live y) (g_out y) (g_exn y).
Proof. induction ts as [|t ts IH]; intros y; [destruct y; reflexivity|]. exact (IH (gstep y (Recv t))). Qed.
Lemma grun_app es es' y : grun_ (es ++ es') y = grun_ es' (grun_ es y).
Proof. apply fold_left_app. Qed.
Lemma handed_over m ts (s : @rst st) : delivers G rws m ts -> length (r_links s) = length ls ->
  r_proc (fst (r_process G inner rs m s)) = fold_left (fun s m => grecv m s) ts (r_proc s).
Proof using Hb Hr.
  intros Hd Hl. destruct Hd as [Hn|t k fs Ht Hn|t k fs sent Ht Hro|t k fs t' k' fs' sent Ht Hro Ht'].
  - unfold r_process. rewrite base_process_decode. destruct (decode m) as [[[t raw] fs]|] eqn:Ed; [|reflexivity].
    exfalso. apply (Hn t (normalize_key raw) fs). apply typed_line_decode. eauto.
  - destruct (process_stuck G inner _ _ _ _ s m t k fs Hb Hr Hl Ht Hn) as (s' & e & -> & H). exact H.
  - destruct (process_route G inner _ _ _ _ s m t k fs _ _ Hb Hr Hl Ht Hro) as (s' & r & -> & Hh & _). inversion Hh; subst. cbn [fst fold_left]. congruence.
  - destruct (process_route G inner _ _ _ _ s m t k fs _ _ Hb Hr Hl Ht Hro) as (s' & r & -> & Hh & _). cbn [fst].
    apply typed_line_decode in Ht' as (raw & Hd & Hn). unfold grecv. cbn [fold_left].
    rewrite process_decode, Hd, Hn.
    inversion Hh as [|? ? ? ? ? ? ? ? Hp Hh'|? ? ? ? ? ? ? Hp]; subst; [inversion Hh'; subst|]; apply (f_equal fst) in Hp; cbn [fst] in Hp; try congruence; symmetry; exact Hp.
Qed.

Record gsim (s0 : st) (d : daemon (S := st)) (y : gsys) (tss : list (list str)) (es : list event) : Prop := {
  gs_st : d_proc d = g_st y;
  gs_live : map snd (d_live d) = g_live y;
  gs_out : map (fun c => snd (fst c)) (d_calls d) = g_out y;
  gs_links : length (r_links (v_proc (d_srv d))) = length ls;
  gs_run : y = grun_ es (gsys_init s0);
  gs_lines : lines es = concat tss;
  gs_order : Forall2 (delivers G rws) (d_order d) tss }.
Lemma gsim_line s0 d y tss es m ts ks (s s' : @server (@rst st)) : gsim s0 d y tss es -> delivers G rws m ts ->
  v_proc s = v_proc (d_srv d) -> v_proc s' = fst (r_process G inner rs m (v_proc s)) ->
  forall i, gsim s0 (Dm ks s' i (d_order d ++ [m]) (d_live d) (d_gone d) (d_begun d) (d_calls d) (d_ended d))
    (grun_ (map Recv ts) y) (tss ++ [ts]) (es ++ map Recv ts).
Proof using Hb Hr.
  intros [H1 H2 H3 H4 H5 H6 H7] Hd Hs Hs' i. rewrite recvs_run.
  split; unfold d_proc in *; cbn [d_srv d_live d_gone d_calls d_order g_st g_live g_out]; try assumption.
  - rewrite Hs', (handed_over m ts _ Hd); [rewrite Hs, H1; reflexivity|]. rewrite Hs. exact H4.
  - refine (eq_trans (f_equal (fun p => length (r_links p)) Hs') _). apply (process_length G inner _ _ _ _ _ Hb). rewrite Hs. exact H4.
  - rewrite grun_app, <- H5, recvs_run. reflexivity.
  - rewrite lines_app, H6, lines_recvs, concat_app. cbn. rewrite app_nil_r. reflexivity.
  - apply Forall2_app; [exact H7|]. constructor; [exact Hd|constructor].
Qed.
Lemma map_delete {A B} (f : A -> B) l i : map f (delete i l) = delete i (map f l).
Proof. revert i. induction l as [|z l IH]; intros [|i]; cbn; auto. f_equal. apply IH. Qed.
Lemma gsim_step s0 d y tss es e : gsim s0 d y tss es ->
  (forall m, In m (d_order (step d e)) -> exists ts, delivers G rws m ts) ->
  exists y' tss' es', gsim s0 (step d e) y' tss' es'.
Proof using Hb Hr.
  intros Hs Hm. destruct e as [e|m| |i l|i].
  - assert (Hquiet : forall ks s', v_proc s' = v_proc (d_srv d) ->
      exists y' tss' es', gsim s0 (Dm ks s' (d_internal d) (d_order d) (d_live d) (d_gone d) (d_begun d) (d_calls d) (d_ended d)) y' tss' es').
    { intros ks s' Hp. exists y, tss, es. destruct Hs as [H1 H2 H3 H4 H5 H6 H7].
      split; cbn; try assumption; [unfold d_proc in *; cbn; rewrite Hp; exact H1|rewrite Hp; exact H4]. }
    cbn [dstep] in *. destruct (sstep (r_process G inner rs) cfg max closes (d_conns d, d_srv d) e) as [ks s'] eqn:Es.
    destruct e as [a data|i data|i]; cbn [sstep] in Es.
    + injection Es as <- <-. rewrite app_nil_r. apply Hquiet. unfold received. destruct (str_eqb _ _); reflexivity.
    + rewrite app_nil_r. apply Hquiet. destruct (d_conns d !! i) as [k|]; [|injection Es as <- <-; reflexivity].
      unfold data_received in Es. destruct (k_open k); [|injection Es as <- <-; reflexivity].
      destruct (line_loop _ _ _ _ _ (d_srv d)) as [[s1 b] o] eqn:El. injection Es as _ <-. eapply loop_proc, El.
    + injection Es as <- <-. unfold run_call. destruct (v_pending (d_srv d) !! i) as [m|] eqn:Ep; [|rewrite app_nil_r; apply Hquiet; reflexivity].
      destruct (Hm m) as [ts Hd]; [cbn [d_order]; apply in_or_app; right; left; reflexivity|].
      destruct (r_process G inner rs m (v_proc (d_srv d))) as [p r] eqn:Ei.
      do 3 eexists. eapply (gsim_line s0 d y tss es m ts _ (d_srv d)); [exact Hs|exact Hd|reflexivity|]. cbn [v_proc]. rewrite Ei. reflexivity.
  - cbn [dstep] in *. destruct (r_process G inner rs m (v_proc (d_srv d))) as [p r] eqn:Ei.
    destruct (Hm m) as [ts Hd]; [cbn [d_order]; apply in_or_app; right; left; reflexivity|].
    do 3 eexists. eapply (gsim_line s0 d y tss es m ts _ (d_srv d)); [exact Hs|exact Hd|reflexivity|]. cbn [v_proc]. rewrite Ei. reflexivity.
  - exists (gstep y (Start interval percent)), tss, (es ++ [Start interval percent]).
    destruct Hs as [H1 H2 H3 H4 H5 H6 H7].
    split; unfold d_proc in *; cbn [dstep d_srv d_live d_gone d_calls d_order gsys_step g_st g_live g_out]; try assumption.
    + rewrite map_app, H2. reflexivity.
    + rewrite grun_app, <- H5. reflexivity.
    + rewrite lines_app, H6. cbn. rewrite app_nil_r. reflexivity.
  - exists y, tss, es. destruct Hs as [H1 H2 H3 H4 H5 H6 H7]. split; cbn; try assumption. rewrite insert_length. exact H4.
  - cbn [dstep]. destruct (d_live d !! i) as [[k g]|] eqn:El; [|eauto].
    destruct Hs as [H1 H2 H3 H4 H5 H6 H7].
    assert (Hy : g_live y !! i = Some g) by (rewrite <- H2, list_lookup_fmap, El; reflexivity).
    assert (Hst : gstep y (Resume i) = match gnext g (g_st y) with
          | (s', Yielded d g') => GSys s' (<[i := g']> (g_live y)) (g_out y ++ [d]) (g_exn y)
          | (s', Finished) => GSys s' (delete i (g_live y)) (g_out y) (g_exn y)
          | (s', Raised x) => GSys s' (delete i (g_live y)) (g_out y) (g_exn y ++ [x])
          end) by (cbn [gsys_step]; rewrite Hy; reflexivity).
    assert (Hlines : lines (es ++ [Resume i]) = concat tss) by (rewrite lines_app, H6; cbn; rewrite app_nil_r; reflexivity).
    rewrite H1 in *. destruct (gnext g (g_st y)) as [p [v g'| |x]] eqn:Eg.
    + destruct (refuses (length (d_calls d)) v) as [x|].
      * exists (grun_ [Resume i; Drop i] y), tss, (es ++ [Resume i; Drop i]).
        assert (Hrun : grun_ [Resume i; Drop i] y = GSys p (delete i (g_live y)) (g_out y ++ [v]) (g_exn y)).
        { cbn [gsys_run fold_left]. rewrite Hst. cbn [gsys_step g_live g_st g_out g_exn]. f_equal.
          clear. generalize (g_live y). intros l. revert i. induction l as [|z l IH]; intros [|i]; cbn; auto. f_equal. apply IH. }
        split; unfold d_proc, d_set_proc in *; cbn [d_srv d_live d_gone d_calls d_order v_proc r_proc r_links]; rewrite ?Hrun; cbn [g_st g_live g_out]; try assumption; try reflexivity.
        { rewrite <- H2. apply map_delete. }
        { rewrite map_app, H3. reflexivity. }
        { rewrite grun_app, <- H5. symmetry. exact Hrun. }
        { rewrite lines_app, H6. cbn. rewrite app_nil_r. reflexivity. }
      * exists (gstep y (Resume i)), tss, (es ++ [Resume i]). rewrite Hst.
        split; unfold d_proc, d_set_proc in *; cbn [d_srv d_live d_gone d_calls d_order v_proc r_proc r_links g_st g_live g_out]; try assumption; try reflexivity.
        { change (<[i := g']> (g_live y)) with (<[i := snd (k, g')]> (g_live y)). rewrite <- H2. apply (list_fmap_insert snd). }
        { rewrite map_app, H3. reflexivity. }
        { rewrite grun_app, <- H5. symmetry. exact Hst. }
    + exists (gstep y (Resume i)), tss, (es ++ [Resume i]). rewrite Hst.
      split; unfold d_proc, d_set_proc in *; cbn [d_srv d_live d_gone d_calls d_order v_proc r_proc r_links g_st g_live g_out]; try assumption; try reflexivity.
      { rewrite <- H2. apply map_delete. }
      { rewrite grun_app, <- H5. symmetry. exact Hst. }
    + exists (gstep y (Resume i)), tss, (es ++ [Resume i]). rewrite Hst.
      split; unfold d_proc, d_set_proc in *; cbn [d_srv d_live d_gone d_calls d_order v_proc r_proc r_links g_st g_live g_out]; try assumption; try reflexivity.
      { rewrite <- H2. apply map_delete. }
      { rewrite grun_app, <- H5. symmetry. exact Hst. }
Qed.
Lemma order_more d e : exists x, d_order (step d e) = d_order d ++ x.
Proof.
  destruct e as [e|m| |i l|i]; cbn [dstep].
  - destruct (sstep (r_process G inner rs) cfg max closes (d_conns d, d_srv d) e) as [ks s]. eexists. reflexivity.
  - destruct (r_process G inner rs m (v_proc (d_srv d))) as [p r]. eexists. reflexivity.
  - exists []. rewrite app_nil_r. reflexivity.
  - exists []. rewrite app_nil_r. reflexivity.
  - exists []. rewrite app_nil_r. destruct (d_live d !! i) as [[k g]|]; [|reflexivity].
    destruct (gnext g (d_proc d)) as [p [v g'| |x]]; try reflexivity. destruct (refuses (length (d_calls d)) v); reflexivity.
Qed.
Lemma order_more_all es : forall d, exists x, d_order (run d es) = d_order d ++ x.
Proof.
  induction es as [|e es IH]; intros d; [exists []; rewrite app_nil_r; reflexivity|].
  cbn [drun fold_left]. change (fold_left step es (step d e)) with (run (step d e) es).
  destruct (order_more d e) as [x Hx], (IH (step d e)) as [x' Hx']. exists (x ++ x'). rewrite Hx', Hx, app_assoc. reflexivity.
Qed.
Lemma daemon_gsim s0 addrs links evs : length links = length ls -> let d := run (d_new addrs links s0) evs in
  (forall m, In m (d_order d) -> exists ts, delivers G rws m ts) ->
  exists y tss es, gsim s0 d y tss es.
Proof using Hb Hr.
  intros Hl. cbv zeta.
  assert (Hrun : forall d y tss es, gsim s0 d y tss es ->
    (forall m, In m (d_order (run d evs)) -> exists ts, delivers G rws m ts) ->
    exists y' tss' es', gsim s0 (run d evs) y' tss' es').
  { induction evs as [|e evs IH]; intros d y tss es Hs Hm; [eauto|].
    cbn [drun fold_left] in *. change (fold_left step evs (step d e)) with (run (step d e) evs) in *.
    destruct (gsim_step s0 d y tss es e Hs) as (y1 & tss1 & es1 & H1).
    - intros m Hi. apply Hm. destruct (order_more_all evs (step d e)) as [x ->]. apply in_or_app. auto.
    - eapply IH; eassumption. }
  apply (Hrun _ (gsys_init s0) [] []). split; try reflexivity; try constructor. exact Hl.
Qed.

(** the daemon's processor never depends on whether the rules are those of its links *)
Lemma links_step d e : length (r_links (v_proc (d_srv d))) = length ls -> length (r_links (v_proc (d_srv (step d e)))) = length ls.
Proof using Hb.
  intros H. destruct e as [e|m| |i l|i]; cbn [dstep].
  - destruct (sstep (r_process G inner rs) cfg max closes (d_conns d, d_srv d) e) as [ks s'] eqn:Es. cbn [d_srv].
    assert (Hq : v_proc s' = v_proc (d_srv d) -> length (r_links (v_proc s')) = length ls) by (intros ->; exact H).
    destruct e as [a data|i data|i]; cbn [sstep] in Es.
    + injection Es as <- <-. apply Hq. unfold received. destruct (str_eqb _ _); reflexivity.
    + apply Hq. destruct (d_conns d !! i) as [k|]; [|injection Es as <- <-; reflexivity].
      unfold data_received in Es. destruct (k_open k); [|injection Es as <- <-; reflexivity].
      destruct (line_loop _ _ _ _ _ (d_srv d)) as [[s1 b] o] eqn:El. injection Es as _ <-. eapply loop_proc, El.
    + injection Es as <- <-. unfold run_call in *. destruct (v_pending (d_srv d) !! i) as [m|] eqn:Ep; [|exact H].
      pose proof (process_length G inner _ _ rs m _ Hb H) as Hp.
      destruct (r_process G inner rs m (v_proc (d_srv d))) as [p r] eqn:Ei. exact Hp.
  - pose proof (process_length G inner _ _ rs m _ Hb H) as Hp.
    destruct (r_process G inner rs m (v_proc (d_srv d))) as [p r]. exact Hp.
  - exact H.
  - cbn. rewrite insert_length. exact H.
  - destruct (d_live d !! i) as [[k g]|]; [|exact H].
    destruct (gnext g (d_proc d)) as [p [v g'| |x]]; try exact H. destruct (refuses (length (d_calls d)) v); exact H.
Qed.
Lemma links_run es : forall d, length (r_links (v_proc (d_srv d))) = length ls -> length (r_links (v_proc (d_srv (run d es)))) = length ls.
Proof using Hb. induction es as [|e es IH]; intros d H; [exact H|]. apply IH, links_step, H. Qed.
End any.
