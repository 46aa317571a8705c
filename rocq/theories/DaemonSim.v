(** Two daemons whose processors run in step do everything else alike.  [R out] relates the
    states of the processors when [out] has been passed to carbon. *)
From Verif Require Import Base StrFacts Num NumFacts Env Metrics Gen GenFacts Processor Configurable Client Router Server
  ClientMetrics Daemon Own.

Section sim.
Context `{NN : Num} {S1 S2 : Type} (R : list dp -> S1 -> S2 -> Prop) (Rg : gen S1 -> gen S2 -> Prop) (G : engine).
Context (in1 : str -> str -> str -> list str -> M S1 unit) (in2 : str -> str -> str -> list str -> M S2 unit).
Context (fl1 : gen S1) (fl2 : gen S2).
Context (Hin : forall out m t k fs p1 p2, R out p1 p2 ->
  R out (fst (in1 m t k fs p1)) (fst (in2 m t k fs p2)) /\ snd (in1 m t k fs p1) = snd (in2 m t k fs p2)).
Context (Hfl : Rg fl1 fl2).
Context (Hnext : forall out g1 g2 p1 p2, Rg g1 g2 -> R out p1 p2 ->
  match gnext g1 p1, gnext g2 p2 with
  | (q1, Yielded v1 h1), (q2, Yielded v2 h2) => R (out ++ [v1]) q1 q2 /\ v1 = v2 /\ Rg h1 h2
  | (q1, Finished), (q2, Finished) => R out q1 q2
  | (q1, Raised e1), (q2, Raised e2) => R out q1 q2 /\ e1 = e2
  | _, _ => False
  end).

(** the router *)
Section fixed.
Context (out : list dp).
Definition rrel (s1 : @rst S1) (s2 : @rst S2) : Prop := R out (r_proc s1) (r_proc s2) /\ r_links s1 = r_links s2 /\ r_bad s1 = r_bad s2.
Definition mrel {A} (f1 : M (@rst S1) A) (f2 : M (@rst S2) A) : Prop :=
  forall s1 s2, rrel s1 s2 -> rrel (fst (f1 s1)) (fst (f2 s2)) /\ snd (f1 s1) = snd (f2 s2).
Lemma mrel_ret {A} (x : A) : mrel (ret x) (ret x).
Proof. intros s1 s2 H. split; [exact H|reflexivity]. Qed.
Lemma mrel_lift {A} (x : res A) : mrel (lift_ x) (lift_ x).
Proof. intros s1 s2 H. split; [exact H|reflexivity]. Qed.
Lemma mrel_raise {A} e : mrel (raise e : M _ A) (raise e).
Proof. intros s1 s2 H. split; [exact H|reflexivity]. Qed.
Lemma mrel_bnd {A B} (f1 : M (@rst S1) A) f2 (k1 : A -> M (@rst S1) B) k2 : mrel f1 f2 -> (forall a, mrel (k1 a) (k2 a)) -> mrel (bnd f1 k1) (bnd f2 k2).
Proof.
  intros Hf Hk s1 s2 H. unfold bnd. destruct (Hf s1 s2 H) as [H1 H2].
  destruct (f1 s1) as [t1 [a|e]], (f2 s2) as [t2 [a2|e2]]; cbn [fst snd] in *; try discriminate; [|injection H2 as <-; auto].
  injection H2 as <-. apply Hk, H1.
Qed.
Lemma mrel_send j text : mrel (Router.send j text) (Router.send j text).
Proof.
  intros s1 s2 (H1 & H2 & H3). unfold Router.send. rewrite H2. destruct (r_links s2 !! j) as [l|]; [|split; [split; auto|reflexivity]].
  destruct (link_write text l) as [l' r]. cbn [fst snd]. unfold rrel. cbn. rewrite ?H2. auto.
Qed.
Lemma mrel_target (t : target G) m : mrel (target_run G t m) (target_run G t m).
Proof.
  destruct m as [[mt key] fields]. destruct t; cbn [target_run].
  - apply mrel_ret.
  - apply mrel_bnd; [apply mrel_lift|intros a; apply mrel_ret].
  - apply mrel_ret.
  - apply mrel_bnd; [apply mrel_send|intros a; apply mrel_ret].
  - apply mrel_raise.
Qed.
Lemma mrel_rule r ms : mrel (rule_run G r ms) (rule_run G r ms).
Proof.
  induction ms as [|m ms IH]; cbn [rule_run]; [apply mrel_ret|].
  apply mrel_bnd; [apply mrel_lift|intros b]. apply mrel_bnd; [destruct b; [apply mrel_target|apply mrel_ret]|intros here].
  apply mrel_bnd; [exact IH|intros rest; apply mrel_ret].
Qed.
Lemma mrel_rules rs : forall ms, mrel (rules_run G rs ms) (rules_run G rs ms).
Proof.
  induction rs as [|r rs IH]; intros ms; cbn [rules_run]; [apply mrel_ret|]. destruct ms as [|m ms]; [apply mrel_ret|].
  apply mrel_bnd; [apply mrel_rule|intros ms'; apply IH].
Qed.
Lemma mrel_hand ms : mrel (hand_over in1 ms) (hand_over in2 ms).
Proof.
  induction ms as [|m ms IH]; cbn [hand_over]; [apply mrel_ret|]. apply mrel_bnd; [|intros []; exact IH].
  intros s1 s2 (H1 & H2 & H3). unfold inner.
  destruct (Hin out (rebuild m) (fst (fst m)) (snd (fst m)) (snd m) _ _ H1) as [Ha Hb].
  destruct (in1 _ _ _ _ (r_proc s1)), (in2 _ _ _ _ (r_proc s2)). cbn [fst snd] in *. unfold rrel. cbn. auto.
Qed.
Lemma mrel_process rs m : mrel (r_process G in1 rs m) (r_process G in2 rs m).
Proof.
  assert (Hf : forall x, mrel (r_fail x) (r_fail x)).
  { intros x s1 s2 (H1 & H2 & H3). unfold r_fail, mod_, rrel. cbn. rewrite H3. auto. }
  unfold r_process, base_process. destruct (negb (has ":" m)); [apply Hf|]. destruct (split1 ":" (strip m)) as [[key data]|]; [|apply mrel_raise].
  destruct (negb (has "|" data)); [apply Hf|]. destruct (_ || _); [apply Hf|]. destruct (_ !! _); [|apply mrel_raise].
  unfold route. apply mrel_bnd; [apply mrel_rules|]. intros [ms|]; [apply mrel_hand|apply mrel_ret].
Qed.

(** the servers *)
Definition vrel (s1 : @server (@rst S1)) (s2 : @server (@rst S2)) : Prop :=
  v_replies s1 = v_replies s2 /\ v_pending s1 = v_pending s2 /\ rrel (v_proc s1) (v_proc s2) /\ v_runs s1 = v_runs s2.
Lemma vrel_received cfg addr data s1 s2 : vrel s1 s2 ->
  vrel (fst (received cfg addr data s1)) (fst (received cfg addr data s2)) /\ snd (received cfg addr data s1) = snd (received cfg addr data s2).
Proof.
  intros (H1 & H2 & H3 & H4). unfold received, reply, later, vrel. destruct (str_eqb _ _); cbn; rewrite ?H1, ?H2; auto.
Qed.
Lemma vrel_loop cfg max closes addr pieces : forall s1 s2, vrel s1 s2 ->
  match line_loop cfg max closes addr pieces s1, line_loop cfg max closes addr pieces s2 with
  | (t1, b1, o1), (t2, b2, o2) => vrel t1 t2 /\ b1 = b2 /\ o1 = o2
  end.
Proof.
  induction pieces as [|p [|p' ps] IH]; intros s1 s2 H.
  - cbn. auto.
  - cbn [line_loop]. destruct (max <? length p)%nat; repeat split; try apply H; auto.
  - cbn [line_loop] in *. destruct (max <? length p)%nat; [auto|]. destruct (vrel_received cfg addr p _ _ H) as [Ha Hb].
    destruct (received cfg addr p s1) as [t1 w1], (received cfg addr p s2) as [t2 w2]. cbn [fst snd] in *. subst w2.
    destruct (closes && w1); [auto|]. apply IH, Ha.
Qed.
Lemma vrel_step rs cfg max closes ks e s1 s2 : vrel s1 s2 ->
  fst (sstep (r_process G in1 rs) cfg max closes (ks, s1) e) = fst (sstep (r_process G in2 rs) cfg max closes (ks, s2) e) /\
  vrel (snd (sstep (r_process G in1 rs) cfg max closes (ks, s1) e)) (snd (sstep (r_process G in2 rs) cfg max closes (ks, s2) e)).
Proof.
  intros H. destruct e as [a data|i data|i]; cbn [sstep].
  - split; [reflexivity|]. apply vrel_received, H.
  - destruct (ks !! i) as [k|]; [|auto]. unfold data_received. destruct (k_open k); [|cbn; auto].
    pose proof (vrel_loop cfg max closes (k_addr k) (split_on2 c_cr c_nl (k_buf k ++ data)) s1 s2 H) as Hl.
    destruct (line_loop _ _ _ _ _ s1) as [[t1 b1] o1], (line_loop _ _ _ _ _ s2) as [[t2 b2] o2]. destruct Hl as (? & <- & <-). cbn. auto.
  - cbn [fst snd]. split; [reflexivity|]. unfold run_call. pose proof H as (H1 & H2 & H3 & H4). rewrite H2. destruct (v_pending s2 !! i) as [m|]; [|exact H].
    destruct (mrel_process rs m _ _ H3) as [Ha Hb]. destruct (r_process G in1 rs m (v_proc s1)), (r_process G in2 rs m (v_proc s2)).
    cbn [fst snd] in *. unfold vrel. cbn. rewrite ?H1, ?H2, ?H4, ?Hb. auto.
Qed.

End fixed.

(** the daemons *)
Definition passed {S} (d : @daemon NN S) : list dp := map (fun c => snd (fst c)) (d_calls d).
Record drel (d1 : @daemon NN S1) (d2 : @daemon NN S2) : Prop := {
  dr_conns : d_conns d1 = d_conns d2;
  dr_srv : vrel (passed d1) (d_srv d1) (d_srv d2);
  dr_internal : d_internal d1 = d_internal d2;
  dr_order : d_order d1 = d_order d2;
  dr_live : Forall2 (fun x y => fst x = fst y /\ Rg (snd x) (snd y)) (d_live d1) (d_live d2);
  dr_gone : Forall2 Rg (d_gone d1) (d_gone d2);
  dr_begun : d_begun d1 = d_begun d2;
  dr_calls : d_calls d1 = d_calls d2;
  dr_ended : d_ended d1 = d_ended d2 }.
Context (rs : list (rule G)) (cfg : mon) (max : nat) (closes : bool) (refuses : nat -> dp -> option exn).
Notation step1 := (dstep G in1 fl1 rs cfg max closes refuses).
Notation step2 := (dstep G in2 fl2 rs cfg max closes refuses).
Lemma Forall2_del {A B} (P : A -> B -> Prop) l l' i : Forall2 P l l' -> Forall2 P (delete i l) (delete i l').
Proof. intros H. revert i. induction H; intros [|i]; cbn; auto. Qed.
Lemma drel_step d1 d2 e : drel d1 d2 -> drel (step1 d1 e) (step2 d2 e).
Proof using Hin Hfl Hnext.
  intros H. pose proof H as [H1 H2 H3 H4 H5 H6 H7 H8 H9]. pose proof H2 as (V1 & V2 & (V3 & V4 & V5) & V6).
  destruct e as [e|m| |i l|i]; cbn [dstep].
  - rewrite H1. destruct (vrel_step (passed d1) rs cfg max closes (d_conns d2) e _ _ H2) as [Ha Hb].
    destruct (sstep (r_process G in1 rs) cfg max closes (d_conns d2, d_srv d1) e), (sstep (r_process G in2 rs) cfg max closes (d_conns d2, d_srv d2) e).
    cbn [fst snd] in *. split; cbn; auto. rewrite V2, H4. reflexivity.
  - destruct (mrel_process (passed d1) rs m _ _ (conj V3 (conj V4 V5))) as [Ha Hb].
    destruct (r_process G in1 rs m (v_proc (d_srv d1))), (r_process G in2 rs m (v_proc (d_srv d2))). cbn [fst snd] in *.
    split; cbn; auto; [|rewrite H3, Hb; reflexivity|rewrite H4; reflexivity]. unfold vrel. cbn. auto.
  - split; cbn; auto. apply Forall2_app; [exact H5|]. constructor; [|constructor]. auto.
  - split; cbn; auto. unfold vrel, rrel, d_proc. cbn. rewrite V4. auto 10.
  - destruct (d_live d1 !! i) as [[k g1]|] eqn:E1.
    2:{ assert (d_live d2 !! i = None) as ->; [|exact H]. apply lookup_ge_None. rewrite <- (Forall2_length _ _ _ H5). apply lookup_ge_None, E1. }
    destruct (Forall2_lookup_l _ _ _ _ _ H5 E1) as ([k2 g2] & -> & Hk & Hg). cbn [fst snd] in Hk, Hg. subst k2.
    pose proof (Hnext (passed d1) g1 g2 (d_proc d1) (d_proc d2) Hg V3) as Hn.
    destruct (gnext g1 (d_proc d1)) as [q1 [v1 h1| |e1]], (gnext g2 (d_proc d2)) as [q2 [v2 h2| |e2]]; try contradiction.
    + destruct Hn as (Hq & <- & Hh). unfold passed in Hq. rewrite H8 in *. destruct (refuses (length (d_calls d2)) v1) as [x|].
      * split; cbn; auto; try (rewrite ?H8, ?H9; reflexivity).
        { unfold vrel, rrel, passed. cbn. rewrite map_app. auto 10. }
        { apply Forall2_del, H5. }
        { apply Forall2_app; [exact H6|]. constructor; [exact Hh|constructor]. }
      * split; cbn; auto; try (rewrite ?H8, ?H9; reflexivity).
        { unfold vrel, rrel, passed. cbn. rewrite map_app. auto 10. }
        { apply Forall2_insert; [exact H5|]. auto. }
    + split; cbn; auto; try (rewrite ?H8, ?H9; reflexivity).
      { unfold vrel, rrel. cbn. auto 10. }
      { apply Forall2_del, H5. }
    + destruct Hn as [Hq <-]. split; cbn; auto; try (rewrite ?H8, ?H9; reflexivity).
      { unfold vrel, rrel. cbn. auto 10. }
      { apply Forall2_del, H5. }
Qed.
Lemma drel_run es : forall d1 d2, drel d1 d2 ->
  drel (drun G in1 fl1 rs cfg max closes refuses d1 es) (drun G in2 fl2 rs cfg max closes refuses d2 es).
Proof using Hin Hfl Hnext. induction es as [|e es IH]; intros d1 d2 H; [exact H|]. apply IH, drel_step, H. Qed.
Lemma drel_new addrs links p1 p2 : R [] p1 p2 -> drel (d_new addrs links p1) (d_new addrs links p2).
Proof. intros H. split; try reflexivity; try constructor; cbn; unfold rrel; cbn; auto. Qed.

(** with the daemon's own statistics *)
Context (CE : cenv) (ext : bool) (instance : str).
Definition orel (w1 : @whole NN S1) (w2 : @whole NN S2) : Prop :=
  o_client w1 = o_client w2 /\ drel (o_daemon w1) (o_daemon w2) /\ o_logged w1 = o_logged w2.
Notation gauge1 := (own_gauge G in1 fl1 rs cfg max closes refuses CE ext).
Notation gauge2 := (own_gauge G in2 fl2 rs cfg max closes refuses CE ext).
Lemma orel_gauge name v c d1 d2 : drel d1 d2 ->
  match gauge1 name v c d1, gauge2 name v c d2 with (c1, e1, r1), (c2, e2, r2) => c1 = c2 /\ drel e1 e2 /\ r1 = r2 end.
Proof using Hin Hfl Hnext.
  intros H. unfold own_gauge. destruct (m_gauge _ _ _ _ _ c) as [c1 r]. destruct (drop _ _) as [|m ms]; [auto|].
  split; [reflexivity|]. split; [apply drel_step, H|]. destruct H as [_ (_ & _ & Hr & _) _ _ _ _ _ _ _]. apply (mrel_process _ rs m _ _ Hr).
Qed.
Lemma orel_items items : forall c d1 d2, drel d1 d2 ->
  match own_items G in1 fl1 rs cfg max closes refuses CE ext instance items c d1,
        own_items G in2 fl2 rs cfg max closes refuses CE ext instance items c d2 with
  (c1, e1, r1), (c2, e2, r2) => c1 = c2 /\ drel e1 e2 /\ r1 = r2 end.
Proof using Hin Hfl Hnext.
  induction items as [|[name v] items IH]; intros c d1 d2 H; cbn [own_items]; [auto|].
  match goal with |- context [own_gauge _ in1 _ _ _ _ _ _ _ _ ?n v c d1] => pose proof (orel_gauge n v c d1 d2 H) as Hg end.
  destruct (gauge1 _ v c d1) as [[c1 e1] r1], (gauge2 _ v c d2) as [[c2 e2] r2]. destruct Hg as (<- & He & <-).
  destruct r1; [apply IH, He|auto].
Qed.
Lemma orel_run h : forall w1 w2, orel w1 w2 ->
  orel (orun G in1 fl1 rs cfg max closes refuses CE ext instance w1 h) (orun G in2 fl2 rs cfg max closes refuses CE ext instance w2 h).
Proof using Hin Hfl Hnext.
  induction h as [|e h IH]; intros w1 w2 H; [exact H|]. cbn [orun fold_left]. apply IH. clear IH. destruct H as (H1 & H2 & H3).
  destruct e as [e|[items|x]|v]; cbn [ostep own_report].
  - unfold orel. cbn. split; [exact H1|]. split; [apply drel_step, H2|exact H3].
  - pose proof (orel_items items (o_client w1) _ _ H2) as Hi. rewrite <- H1.
    destruct (own_items _ in1 _ _ _ _ _ _ _ _ _ _ _ _) as [[c1 e1] r1], (own_items _ in2 _ _ _ _ _ _ _ _ _ _ _ _) as [[c2 e2] r2].
    destruct Hi as (<- & He & <-). unfold orel. cbn. rewrite H3. auto.
  - unfold orel. cbn. rewrite H3. auto.
  - pose proof (orel_gauge (B "delay") v (o_client w1) _ _ H2) as Hi. rewrite <- H1.
    destruct (gauge1 _ _ _ _) as [[c1 e1] r1], (gauge2 _ _ _ _) as [[c2 e2] r2]. destruct Hi as (<- & He & <-). unfold orel. cbn. auto.
Qed.
End sim.
