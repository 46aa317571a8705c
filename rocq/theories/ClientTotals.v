(** Integer counters from the client calls to the server's state; running totals. *)
From Verif Require Import Base StrFacts Num NumFacts Env Stats Glob Metrics Gen Processor
  LineSpec LineFacts FloatFacts ProcFacts ProcSpec ReceiveFacts ReceiveFacts2 ReceiveFacts3
  ClientMetrics ClientMetricsSpec ClientMetricsFacts ClientMetricsFun ClientServer.
From Coq Require Import QArith Qcanon.
Open Scope Z_scope.

Section bindings.
Context `{NN : Num} (E : cenv) (P : mconf).
(** a call that can open a name leaves it bound *)
Lemma bound_exists h c q k0 r0 : about P c q -> opens P c k0 r0 -> exists k r, bound P (h ++ [c]) q k r.
Proof.
  intros Ha Ho. destruct (history_ok E P (h ++ [c])) as [Hd _]. specialize (Hd q).
  destruct (cl_metrics _ !! q) as [o|].
  - destruct Hd as (_ & Hb & _). eauto.
  - exfalso. eapply Hd; eauto. apply in_or_app. right. left. reflexivity.
Qed.
End bindings.

(** ** integer counters *)
Section ints.
Context `{NN : Num} (E : cenv) (P : mconf).

(** a call that only counts with integers, unsampled, under a clean name *)
Inductive counts : call -> str -> Z -> Prop :=
| cn_inc n q z : qualified (m_ns P) n q -> clean_name q -> counts (CIncrement n (VInt z) (VInt 1)) q z
| cn_dec n q z : qualified (m_ns P) n q -> clean_name q -> counts (CDecrement n (VInt z) (VInt 1)) q (- z).

Lemma counts_about c q z : counts c q z -> about P c q.
Proof. intros H. destruct H; exists n; (split; [constructor|auto]). Qed.
Lemma counts_opens c q z : counts c q z -> m_ext P = false -> opens P c KPlain (VInt 1).
Proof.
  intros H Hx. replace KPlain with (if m_ext P then KCounter else KPlain) by (rewrite Hx; auto).
  destruct H; constructor.
Qed.

(** what such a call writes, after any history that used the name unsampled *)
Theorem counts_outcome h c q z : m_ext P = false -> m_conn P = true -> counts c q z ->
  (forall k r, bound P (h ++ [c]) q k r -> below_one r = false) ->
  outcome E P h c = ([q ++ B ":" ++ show_Z z ++ B "|c"], Ok tt).
Proof.
  intros Hx Hc Hct Hr. pose proof (counts_about _ _ _ Hct) as Ha.
  destruct (bound_exists E P h c q _ _ Ha (counts_opens _ _ _ Hct Hx)) as (k & r & Hb).
  assert (Hs : says E P h q k c (show_Z z ++ B "|c")).
  { destruct Hct as [n q z Hq Hcl|n q z Hq Hcl].
    - apply (sy_inc E P h q k n (VInt z) (VInt 1) Hx).
    - apply (sy_dec E P h q k n (VInt z) (VInt (- z)) (VInt 1) Hx eq_refl). }
  destruct (spoken E P h c q k r _ Ha Hb Hs Hc) as (H & _ & _).
  apply H; [eapply Hr; eauto|].
  intros a Hin. assert (Hcl : clean_name q) by (destruct Hct; auto).
  apply in_app_or in Hin as [Hin|Hin]; [apply Hcl; auto|].
  apply in_app_or in Hin as [Hin|Hin]; [destruct Hin as [<-|[]]; reflexivity|].
  apply in_app_or in Hin as [Hin|Hin]; [eapply float_ascii; [apply show_Z_text|exact Hin]|].
  destruct Hin as [<-|[<-|[]]]; reflexivity.
Qed.

(** all calls of [h] count; the lines are those of the calls, in order *)
Inductive counting : list call -> list (str * Z) -> Prop :=
| cg_nil : counting [] []
| cg_snoc h l c q z : counting h l -> counts c q z -> counting (h ++ [c]) (l ++ [(q, z)]).
Lemma counting_rate h l c q z q' k r : counting h l -> counts c q z -> bound P (h ++ [c]) q' k r -> r = VInt 1.
Proof.
  intros Hh Hc (h1 & c' & h2 & Hd & _ & Ho & _).
  assert (Hall : forall x, In x (h ++ [c]) -> exists q z, counts x q z).
  { clear -Hh Hc. intros x Hx. apply in_app_or in Hx as [Hx|[<-|[]]]; [|eauto].
    induction Hh as [|h l c' q' z' Hh IH Hc']; [destruct Hx|]. apply in_app_or in Hx as [Hx|[<-|[]]]; eauto. }
  destruct (Hall c') as (q1 & z1 & H1). { rewrite Hd. apply in_or_app. right. left. reflexivity. }
  destruct H1; inversion Ho; reflexivity.
Qed.
Theorem counting_lines h l : m_ext P = false -> m_conn P = true -> counting h l ->
  cl_out (calls E P h cl_init) = map (fun qz => fst qz ++ B ":" ++ show_Z (snd qz) ++ B "|c") l.
Proof.
  intros Hx Hc Hh. induction Hh as [|h l c q z Hh IH Hct]; [reflexivity|].
  rewrite (calls_out E P), IH, map_app. f_equal.
  rewrite (counts_outcome h c q z Hx Hc Hct); [reflexivity|].
  intros k r Hb. rewrite (counting_rate _ _ _ _ _ _ _ _ Hh Hct Hb). reflexivity.
Qed.
Lemma counting_clean h l : counting h l -> Forall (fun qz => clean_name (fst qz)) l.
Proof.
  induction 1 as [|h l c q z Hh IH Hct]; [constructor|]. apply Forall_app. split; [auto|].
  repeat constructor; destruct Hct; cbn; auto; destruct H0 as (? & ? & ?); auto.
Qed.
End ints.

(** ** at the exact server *)
(** arithmetic that is exact on integers *)
Class NumInt (NN : Num) : Prop := {
  nofZ_add : forall a b, nadd (nofZ a) (nofZ b) = nofZ (a + b);
  nlit_int : forall z, nlit (FDec (z <? 0) (Z.abs z) 0) = nofZ z;
  ndiv_one : forall z, ndiv (nofZ z) n1 = nofZ z }.

Global Instance XQ_int sq : NumInt (XQ sq).
Proof.
  split.
  - intros a b. cbn. rewrite QcZ_add. reflexivity.
  - intros z. cbn [nlit XQ nofZ]. unfold xlit. assert (Qcpow10 0 = 1%Qc) as -> by (apply Qc_is_canon; reflexivity). rewrite Qcmult_1_r.
    destruct (z <? 0) eqn:Ez; do 2 f_equal; [apply Z.ltb_lt in Ez|apply Z.ltb_ge in Ez]; lia.
  - intros z. cbn. f_equal. rewrite QcZ_1. unfold Qcdiv. assert (/ 1 = 1)%Qc as -> by (apply Qc_is_canon; reflexivity). ring.
Qed.

Section server.
Context `{NN : Num} {NL : NumLaw NN} {NX : NumExact NN} {NI : NumInt NN}.

(** the sum of the amounts whose name becomes [key] *)
Fixpoint counted (key : str) (l : list (str * Z)) : Z :=
  match l with
  | [] => 0
  | (q, z) :: l' => if str_eqb (normalize_key q) key then z + counted key l' else counted key l'
  end.
Definition mentioned (key : str) (l : list (str * Z)) : Prop := exists q z, In (q, z) l /\ normalize_key q = key.

Lemma reads_int z : reads (show_Z z) (nofZ z).
Proof. exists (FDec (z <? 0) (Z.abs z) 0). split; [apply show_Z_text|]. symmetry. apply nlit_int. Qed.

Notation ln q z := (q ++ B ":" ++ show_Z z ++ B "|c").
Lemma int_amount q z : clean_name q -> counter_amount (normalize_key q) (ln q z) (nofZ z).
Proof.
  intros Hq. apply contribution_amount. exists (nofZ z), n1.
  split; [apply counter_line; [auto|apply reads_int]|]. symmetry. apply ndiv_one.
Qed.
Lemma int_hit q z E plugins (s : mst) : clean_name q ->
  p_counter (receive E plugins (ln q z) s) !! normalize_key q =
  Some (nadd (default n0 (p_counter s !! normalize_key q)) (nofZ z)).
Proof.
  intros Hq. pose proof (int_amount q z Hq) as Hc.
  destruct (counter_one E plugins (ln q z) (normalize_key q) s) as [(a & Ha & H)|[(_ & H & _)|(_ & H & _)]];
    [|destruct (H _ Hc)|destruct (H _ Hc)].
  rewrite (counter_amount_fun _ _ _ _ Ha Hc) in H. exact H.
Qed.
Lemma int_other q z key E plugins (s : mst) : clean_name q -> normalize_key q <> key ->
  p_counter (receive E plugins (ln q z) s) !! key = p_counter s !! key.
Proof.
  intros Hq Hk.
  assert (Ht : typed_line (ln q z) (B "c") (normalize_key q) [show_Z z; B "c"]).
  { apply (plain_typed q (show_Z z) (B "c")); [exact Hq|eapply reads_no_bar, reads_int|apply not_bar; reflexivity|discriminate|reflexivity]. }
  assert (Hn : ~ counter_touch (ln q z) key).
  { intros [f0 v H _|f0 f2 run v H _ _]; apply Hk; eapply (typed_line_fun _ _ _ _ _ _ _ Ht H). }
  destruct (counter_one E plugins (ln q z) key s) as [(a & Ha & _)|[(K & _)|(_ & _ & K)]]; auto.
  - exfalso. apply Hn. eapply amount_touch; eauto.
  - contradiction.
Qed.
Lemma counted_none key l : ~ mentioned key l -> counted key l = 0.
Proof.
  induction l as [|[a b] l IH]; intros H; [reflexivity|]. cbn. destruct (str_eqb (normalize_key a) key) eqn:D.
  - exfalso. apply H. exists a, b. split; [left; auto|]. apply str_eqb_eq. exact D.
  - apply IH. intros (x & y & H1 & H2). apply H. exists x, y. split; [right; auto|auto].
Qed.
Lemma mentioned_dec key l : mentioned key l \/ ~ mentioned key l.
Proof.
  induction l as [|[a b] l IH]; [right; intros (? & ? & [] & _)|].
  destruct (decide (normalize_key a = key)) as [K|K].
  - left. exists a, b. split; [left; auto|auto].
  - destruct IH as [(x & y & H1 & H2)|IH]; [left; exists x, y; split; [right; auto|auto]|].
    right. intros (x & y & [H1|H1] & H2); [injection H1 as -> ->; contradiction|]. apply IH. exists x, y. auto.
Qed.

Theorem counted_at_server E plugins l (s : mst) key :
  Forall (fun qz => clean_name (fst qz)) l ->
  let s' := receive_all E plugins (map (fun qz => ln (fst qz) (snd qz)) l) s in
  (~ mentioned key l -> p_counter s' !! key = p_counter s !! key) /\
  (mentioned key l -> p_counter s' !! key = Some (nadd (default n0 (p_counter s !! key)) (nofZ (counted key l)))).
Proof.
  intros Hl. revert s. induction Hl as [|[q z] l Hq Hl IH]; intros s s'.
  - split; [reflexivity|]. intros (? & ? & [] & _).
  - subst s'. cbn [map fst snd]. rewrite receive_all_cons. cbn [fst] in Hq.
    destruct (IH (receive E plugins (ln q z) s)) as [I1 I2]. cbn [counted].
    destruct (str_eqb (normalize_key q) key) eqn:K.
    + apply str_eqb_eq in K. split; [intros H; exfalso; apply H; exists q, z; split; [left; auto|auto]|]. intros _.
      pose proof (int_hit q z E plugins s Hq) as Hh. rewrite K in Hh.
      destruct (mentioned_dec key l) as [H|H].
      * rewrite (I2 H), Hh. cbn [from_option id]. unfold id. rewrite <- nadd_assoc, nofZ_add. reflexivity.
      * rewrite (I1 H), Hh, (counted_none key l H). do 3 f_equal. lia.
    + apply str_eqb_neq in K. pose proof (int_other q z key E plugins s Hq K) as Ho. rewrite <- Ho. split; intros H.
      * apply I1. intros (x & y & H1 & H2). apply H. exists x, y. split; [right; auto|auto].
      * apply I2. destruct H as (x & y & [H1|H1] & H2); [injection H1 as -> ->; contradiction|]. exists x, y. auto.
Qed.

(** from calls to counters *)
Theorem counting_end_to_end CE P E plugins h l (s : mst) key :
  m_ext P = false -> m_conn P = true -> counting P h l ->
  let s' := receive_all E plugins (cl_out (calls CE P h cl_init)) s in
  (~ mentioned key l -> p_counter s' !! key = p_counter s !! key) /\
  (mentioned key l -> p_counter s' !! key = Some (nadd (default n0 (p_counter s !! key)) (nofZ (counted key l)))).
Proof.
  intros Hx Hc Hh. rewrite (counting_lines CE P h l Hx Hc Hh). apply counted_at_server. eapply counting_clean; eauto.
Qed.

(** a sampled increment adds value/rate when it is sent (any value that prints as a number) *)
Theorem sampled_increment CE P E plugins h n v q k r x rt run y (s : mst) :
  m_ext P = false -> m_conn P = true -> qualified (m_ns P) n q -> clean_name q ->
  bound P (h ++ [CIncrement n v r]) q k rt -> below_one rt = true ->
  reads (show CE v) x -> label_ok (show CE rt) -> (forall c, In c (show CE rt) -> (N_of_ascii c < 128)%N) ->
  rate_text (B "@" ++ show CE rt) run -> reads run y -> neqb y n0 = false ->
  (above (next_draw CE P h) rt = true -> outcome CE P h (CIncrement n v r) = ([], Ok tt)) /\
  (above (next_draw CE P h) rt = false -> exists m, outcome CE P h (CIncrement n v r) = ([m], Ok tt) /\
     p_counter (receive E plugins m s) !! normalize_key q =
       Some (nadd (default n0 (p_counter s !! normalize_key q)) (ndiv x y))).
Proof.
  intros Hx Hc Hq Hcl Hb Hlow Hv Hl Hla Hr Hy Hz.
  assert (Ha : about P (CIncrement n v r) q) by (exists n; split; [constructor|auto]).
  destruct (spoken CE P h _ q k rt _ Ha Hb (sy_inc CE P h q k n v r Hx) Hc) as (_ & H1 & H2).
  split; [intros H; apply H1; auto|]. intros H. eexists. split; [apply H2; auto|].
  - intros a Hin. apply in_app_or in Hin as [Hin|Hin]; [apply Hcl; auto|].
    apply in_app_or in Hin as [Hin|Hin]; [destruct Hin as [<-|[]]; reflexivity|].
    apply in_app_or in Hin as [Hin|Hin].
    + apply in_app_or in Hin as [Hin|Hin]; [destruct Hv as (fl & Hv & _); eapply float_ascii; [exact Hv|exact Hin]|].
      destruct Hin as [<-|[<-|[]]]; reflexivity.
    + destruct Hin as [<-|[<-|Hin]]; [reflexivity|reflexivity|auto].
  - match goal with |- p_counter (receive _ _ ?m _) !! _ = _ => set (ms := m) end.
    assert (Hs : counter_amount (normalize_key q) ms (ndiv x y)).
    { apply contribution_amount. exists x, y. split; [|reflexivity].
      exact (counter_line_rate q (show CE v) x (show CE rt) run y Hcl Hv Hl Hr Hy Hz). }
    destruct (counter_one E plugins ms (normalize_key q) s) as [(a & Ha' & K)|[(_ & K & _)|(_ & K & _)]];
      [|destruct (K _ Hs)|destruct (K _ Hs)].
    rewrite (counter_amount_fun _ _ _ _ Ha' Hs) in K. exact K.
Qed.
End server.

Section distinct.
Context `{NN : Num}.
Lemma no_plugin_d plugins : plugin_table plugins !! B "d" = None.
Proof.
  unfold plugin_table. assert (H : forall m : gmap str factory, m !! B "d" = None ->
    fold_left (fun m f => <[factory_type f := f]> m) plugins m !! B "d" = None).
  { induction plugins as [|f l IH]; intros m Hm; [exact Hm|]. cbn. apply IH.
    rewrite lookup_insert_ne; [exact Hm|]. destruct f; discriminate. }
  apply H. apply lookup_empty.
Qed.
Lemma distinct_bound P h q r : bound P h q KDistinct r -> r = VInt 1.
Proof.
  intros (h1 & c & h2 & _ & _ & Ho & _). inversion Ho; auto; destruct (m_ext P); discriminate.
Qed.
Lemma distinct_message CE P h n q item r m plugins : qualified (m_ns P) n q ->
  bound P (h ++ [CDistinct n item]) q KDistinct r -> In m (fst (outcome CE P h (CDistinct n item))) ->
  ~ In "|"%char q -> ~ In "|"%char (show CE item) -> malformed (plugin_table plugins) m.
Proof.
  intros Hq Hb Hm Hnq Hni. rewrite (distinct_bound _ _ _ _ Hb) in Hb.
  destruct (outcome CE P h (CDistinct n item)) as [out e] eqn:Eo. apply outcome_iff in Eo. cbn in Hm.
  inversion Eo as [|n1 q1 Hq1 Hb1|c1 q1 k1 r1 e1 Ha1 Hb1 Hr|c1 q1 k1 r1 d o1 e1 Ha1 Hb1 Hs Ht]; subst; try (destruct Hm; fail).
  assert (q1 = q) as -> by (eapply about_fun; [exact Ha1|exists n; split; [constructor|exact Hq]]).
  destruct (bound_fun _ _ _ _ _ _ _ Hb1 Hb) as [-> ->].
  inversion Hs as [| | | | | | |? ? ? Hmk| | | | | | |]; subst. inversion Hmk; subst.
  inversion Ht as [? ? ? R|? ? R|R]; subst; try discriminate.
  inversion R; subst; try (destruct Hm; fail). destruct Hm as [<-|[]].
  apply distinct_rejected; auto. apply no_plugin_d.
Qed.
End distinct.

Section kinds.
Context `{NN : Num} (CE : cenv) (P : mconf).
(** a name taken by increment/decrement/timing of the plain API has no [mark] *)
Theorem no_mark_raises h n q k r v r' t x : qualified (m_ns P) n q -> bound P h q k r -> no_mark k ->
  outcome CE P h (CGauge n v r') = ([], Exn AttributeError) /\
  outcome CE P h (CMeter n v r') = ([], Exn AttributeError) /\
  outcome CE P h (CDistinct n v) = ([], Exn AttributeError) /\
  outcome CE P h (CReport n v t x) = ([], Exn AttributeError).
Proof.
  intros Hq Hb Hk.
  repeat split; apply outcome_iff; (eapply ef_refuse; [exists n; split; [constructor|exact Hq]|apply bound_app; exact Hb|constructor; exact Hk]).
Qed.
(** the other way round nothing is raised: a counter line is sent for a gauge *)
Theorem increment_always_speaks h n q k r v : m_ext P = false -> qualified (m_ns P) n q -> bound P h q k r ->
  snd (outcome CE P h (CIncrement n v (VInt 1))) = Ok tt \/
  snd (outcome CE P h (CIncrement n v (VInt 1))) = Exn UnicodeDecodeError.
Proof.
  intros Hx Hq Hb. destruct (outcome CE P h (CIncrement n v (VInt 1))) as [out e] eqn:Eo. apply outcome_iff in Eo. cbn.
  inversion Eo as [|n1 q1 Hq1 Hb1|c1 q1 k1 r1 e1 Ha1 Hb1 Hr|c1 q1 k1 r1 d o1 e1 Ha1 Hb1 Hs Ht]; subst.
  - inversion Hr; subst; congruence.
  - inversion Ht as [? ? ? R|? ? ? ? R|]; subst; auto; inversion R; subst; auto.
Qed.
(** sampling: every message written by a call, and every call that writes none *)
Theorem sampling h c q k r data : about P c q -> bound P (h ++ [c]) q k r -> says CE P h q k c data -> m_conn P = true ->
  (forall a, In a (q ++ B ":" ++ data ++ B "|@" ++ show CE r) -> (N_of_ascii a < 128)%N) ->
  outcome CE P h c =
    (if below_one r then
       if above (next_draw CE P h) r then [] else [q ++ B ":" ++ data ++ B "|@" ++ show CE r]
     else [q ++ B ":" ++ data], Ok tt).
Proof.
  intros Ha Hb Hs Hc Hm. destruct (spoken CE P h c q k r data Ha Hb Hs Hc) as (H1 & H2 & H3).
  destruct (below_one r).
  - destruct (above (next_draw CE P h) r); [apply H2; auto|apply H3; auto].
  - apply H1; [auto|]. intros a Hin. apply Hm. apply in_app_or in Hin as [Hin|Hin]; apply in_or_app; [auto|].
    right. rewrite app_assoc. apply in_or_app. left. exact Hin.
Qed.
(** the draw is the next one of the random generator: draws are used in order *)
Theorem draws_in_order h c : cl_draws (calls CE P (h ++ [c]) cl_init) = cl_draws (calls CE P h cl_init) \/
  cl_draws (calls CE P (h ++ [c]) cl_init) = S (cl_draws (calls CE P h cl_init)).
Proof.
  unfold calls. rewrite fold_left_app. cbn [fold_left]. set (s := fold_left _ h cl_init).
  assert (Hs : forall o d s, let s' := fst (send CE P o d s) in cl_draws s' = cl_draws s \/ cl_draws s' = S (cl_draws s)).
  { intros o d s0. destruct (send_ok CE P o d s0) as (out & e & n & H & _ & Hn). cbn zeta. rewrite H. cbn. destruct (below_one _); auto. }
  assert (Hm : forall q k r s, exists o d, metric_of q k r s = (set_metrics d s, Ok o)).
  { intros q k r s0. unfold metric_of, bnd, get_, mod_, ret. destruct (cl_metrics s0 !! q) as [o|].
    - exists o, (cl_metrics s0). destruct s0; reflexivity.
    - eexists _, _. reflexivity. }
  assert (H1 : forall o v s, let s' := fst (mark1 CE P o v s) in cl_draws s' = cl_draws s \/ cl_draws s' = S (cl_draws s)).
  { intros o v s0. unfold mark1. destruct (o_kind o); try apply Hs; left; reflexivity. }
  assert (H2 : forall o v x s, let s' := fst (mark2 CE P o v x s) in cl_draws s' = cl_draws s \/ cl_draws s' = S (cl_draws s)).
  { intros o v x s0. unfold mark2. destruct (o_kind o); try destruct x; try apply Hs; left; reflexivity. }
  assert (H3 : forall o r s, let s' := fst (counter_update CE P o r s) in cl_draws s' = cl_draws s \/ cl_draws s' = S (cl_draws s)).
  { intros o r s0. unfold counter_update, bnd, lift_. destruct r; [|left; reflexivity]. cbn. apply (Hs (set_count a o) _ (set_metrics _ s0)). }
  destruct c; cbn [do_call].
  - unfold m_report, bnd. destruct (Hm (qualify P n) (KGeneric t) (VInt 1) s) as (o & d & ->). apply (H2 o v extra (set_metrics d s)).
  - unfold m_sli, m_report, bnd. destruct (Hm (qualify P n) (KGeneric (B "sli")) (VInt 1) s) as (o & d & ->). apply (H2 o v size (set_metrics d s)).
  - unfold m_sli_error, m_report, bnd. destruct (Hm (qualify P n) (KGeneric (B "sli")) (VInt 1) s) as (o & d & ->). apply (H2 o _ None (set_metrics d s)).
  - unfold m_gauge, bnd. destruct (Hm (qualify P n) KGauge rate s) as (o & d & ->). apply (H1 o v (set_metrics d s)).
  - unfold m_meter, bnd. destruct (Hm (qualify P n) KMeter rate s) as (o & d & ->). apply (H1 o v (set_metrics d s)).
  - unfold m_increment. destruct (m_ext P); unfold bnd.
    + destruct (Hm (qualify P n) KCounter rate s) as (o & d & ->).
      destruct (o_kind o); try (left; reflexivity). apply (H3 o _ (set_metrics d s)).
    + destruct (Hm (qualify P n) KPlain rate s) as (o & d & ->). apply (Hs o _ (set_metrics d s)).
  - unfold m_decrement. destruct (m_ext P).
    + destruct (Hm (qualify P n) KCounter rate s) as (o & d & He). rewrite (bnd_ok _ _ _ _ _ He).
      destruct (o_kind o); try (left; reflexivity). apply (H3 o _ (set_metrics d s)).
    + destruct (Hm (qualify P n) KPlain rate s) as (o & d & He). rewrite (bnd_ok _ _ _ _ _ He). unfold bnd, lift_.
      destruct (pneg v); [|left; reflexivity]. apply (Hs o _ (set_metrics d s)).
  - unfold m_timing.
    destruct ((match d with None => m_calculate_duration CE | Some d => ret d end) s) as [s1 [x|e]] eqn:Ed.
    + assert (Hd : cl_draws s1 = cl_draws s).
      { destruct d; [injection Ed as <- _; reflexivity|]. unfold m_calculate_duration, bnd, now_, get_, lift_, mod_, ret in Ed.
        cbn -[psub] in Ed. destruct (psub _ _); injection Ed as <- _; reflexivity. }
      rewrite (bnd_ok _ _ _ _ _ Ed), <- Hd. destruct (m_ext P); unfold bnd.
      * destruct (Hm (qualify P n) KTimer rate s1) as (o & d' & ->). apply (H1 o _ (set_metrics d' s1)).
      * destruct (Hm (qualify P n) KPlain rate s1) as (o & d' & ->). apply (Hs o _ (set_metrics d' s1)).
    + rewrite (bnd_exn _ _ _ _ _ Ed). left. destruct d; [discriminate|]. unfold m_calculate_duration, bnd, now_, get_, lift_, mod_, ret in Ed.
      cbn -[psub] in Ed. destruct (psub _ _); [discriminate|]. injection Ed as <- _; reflexivity.
  - unfold m_distinct, bnd. destruct (Hm (qualify P n) KDistinct (VInt 1) s) as (o & d & ->). apply (H1 o v (set_metrics d s)).
  - unfold m_clear, bnd, get_. destruct (cl_metrics s !! qualify P n) as [o|]; [|left; reflexivity].
    destruct (o_kind o); try (left; reflexivity). apply (H3 o _ s).
  - left. reflexivity.
Qed.

(** a running total of integers is their sum since the last clear *)
Inductive int_total (q : str) : list call -> Z -> Prop :=
| it_none : int_total q [] 0
| it_inc h n z r t : qualified (m_ns P) n q -> int_total q h t -> int_total q (h ++ [CIncrement n (VInt z) r]) (t + z)
| it_dec h n z r t : qualified (m_ns P) n q -> int_total q h t -> int_total q (h ++ [CDecrement n (VInt z) r]) (t - z)
| it_clear h n t : qualified (m_ns P) n q -> int_total q h t -> int_total q (h ++ [CClear n]) 0
| it_other h c t : ~ about P c q -> int_total q h t -> int_total q (h ++ [c]) t.
Lemma int_total_total q h t : int_total q h t -> total P q h (VInt t).
Proof.
  induction 1; [constructor|eapply to_inc; eauto|eapply to_dec; eauto|eapply to_clear; eauto|].
  apply total_other; auto.
Qed.
(** extended counters: the message of an increment by [z] carries the new total *)
Theorem extended_total h n q z t r r0 : m_ext P = true -> m_conn P = true -> qualified (m_ns P) n q ->
  (forall a, In a q -> (N_of_ascii a < 128)%N) ->
  int_total q h t -> bound P (h ++ [CIncrement n (VInt z) r]) q KCounter r0 -> below_one r0 = false ->
  outcome CE P h (CIncrement n (VInt z) r) = ([q ++ B ":" ++ show_Z (t + z) ++ B "|c"], Ok tt).
Proof.
  intros Hx Hc Hq Hcl Ht Hb Hr.
  assert (Ha : about P (CIncrement n (VInt z) r) q) by (exists n; split; [constructor|auto]).
  assert (Htot : total P q (h ++ [CIncrement n (VInt z) r]) (VInt (t + z))).
  { eapply to_inc; [exact Hq|apply int_total_total; exact Ht|reflexivity]. }
  destruct (spoken CE P h _ q KCounter r0 _ Ha Hb (sy_inc_ext CE P h q KCounter n (VInt z) r _ Hx eq_refl Logic.I Htot) Hc) as (H & _).
  apply H; [auto|]. intros a Hin. apply in_app_or in Hin as [Hin|Hin]; [auto|].
  apply in_app_or in Hin as [[<-|[]]|Hin]; [reflexivity|]. apply in_app_or in Hin as [Hin|Hin].
  - eapply float_ascii; [apply show_Z_text|exact Hin].
  - destruct Hin as [<-|[<-|[]]]; reflexivity.
Qed.
Theorem extended_total_dec h n q z t r r0 : m_ext P = true -> m_conn P = true -> qualified (m_ns P) n q ->
  (forall a, In a q -> (N_of_ascii a < 128)%N) ->
  int_total q h t -> bound P (h ++ [CDecrement n (VInt z) r]) q KCounter r0 -> below_one r0 = false ->
  outcome CE P h (CDecrement n (VInt z) r) = ([q ++ B ":" ++ show_Z (t - z) ++ B "|c"], Ok tt).
Proof.
  intros Hx Hc Hq Hcl Ht Hb Hr.
  assert (Ha : about P (CDecrement n (VInt z) r) q) by (exists n; split; [constructor|auto]).
  assert (Htot : total P q (h ++ [CDecrement n (VInt z) r]) (VInt (t - z))).
  { eapply to_dec; [exact Hq|apply int_total_total; exact Ht|reflexivity]. }
  destruct (spoken CE P h _ q KCounter r0 _ Ha Hb (sy_dec_ext CE P h q KCounter n (VInt z) r _ Hx eq_refl Logic.I Htot) Hc) as (H & _).
  apply H; [auto|]. intros a Hin. apply in_app_or in Hin as [Hin|Hin]; [auto|].
  apply in_app_or in Hin as [[<-|[]]|Hin]; [reflexivity|]. apply in_app_or in Hin as [Hin|Hin].
  - eapply float_ascii; [apply show_Z_text|exact Hin].
  - destruct Hin as [<-|[<-|[]]]; reflexivity.
Qed.
Theorem counter_messages h c q r m : m_ext P = true -> bound P (h ++ [c]) q KCounter r -> about P c q ->
  In m (fst (outcome CE P h c)) ->
  exists t suffix, total P q (h ++ [c]) t /\ m = q ++ B ":" ++ show CE t ++ B "|c" ++ suffix /\
    (suffix = [] \/ suffix = B "|@" ++ show CE r).
Proof.
  intros Hx Hb Ha Hm. destruct (outcome CE P h c) as [out e] eqn:Eo. apply outcome_iff in Eo. cbn in Hm.
  inversion Eo as [|n1 q1 Hq1 Hb1|c1 q1 k1 r1 e1 Ha1 Hb1 Hr|c1 q1 k1 r1 d o1 e1 Ha1 Hb1 Hs Ht]; subst; try (destruct Hm; fail).
  assert (q1 = q) as -> by (eapply about_fun; [exact Ha1|exact Ha]).
  destruct (bound_fun _ _ _ _ _ _ _ Hb1 Hb) as [-> ->].
  assert (Hd : exists t, total P q (h ++ [c]) t /\ d = show CE t ++ B "|c").
  { inversion Hs; subst; try discriminate; try congruence;
      try match goal with A : marks _ KCounter _ _ |- _ => inversion A end; eauto.
    assert (Htot : exists t, total P q h t).
    { destruct (history_ok CE P h) as [Hd _]. specialize (Hd q). destruct (cl_metrics _ !! q) as [o|].
      - destruct Hd as (_ & Hb2 & Ht2). destruct (bound_fun _ _ _ _ _ _ _ (bound_app _ _ (CClear n) _ _ _ Hb2) Hb) as [K _]. eauto.
      - exists (VInt 0). apply total_free. exact Hd. }
    destruct Htot as [t Htot]. exists (VInt 0). split; [|reflexivity].
    destruct Ha as (n' & Hn & Hq). inversion Hn; subst. eapply to_clear; eauto. }
  destruct Hd as (t & Htot & ->).
  inversion Ht as [? ? ? R|? ? ? ? R|]; subst; try (destruct Hm; fail);
    inversion R; subst; try (destruct Hm; fail); destruct Hm as [<-|[]]; exists t.
  - exists []. rewrite app_nil_r. auto.
  - exists (B "|@" ++ show CE r). rewrite <- !app_assoc. auto.
Qed.
End kinds.
