(** The configurable processor: what one received line does to the reporters,
    and what flushing never changes. *)
From Verif Require Import Base StrFacts Num Env Stats Glob Metrics Gen GenFacts Processor Configurable
  LineSpec LineFacts FloatFacts ProcFacts ProcSpec ReceiveFacts ReceiveFacts2 Sched StepFacts CSched.

Section conf.
Context `{NN : Num} (E : env) (prefix internal : str) (plugins : list factory).
Notation C := (cp_cls E prefix internal plugins).
Definition creceive (m : str) (s : cst) : cst := fst (process E C m s).
Definition cflush (i p : Z) : gen cst := flush E C i p.
(** the state after any schedule of lines and flushes *)
Definition creached (es : list event) : cst := reached creceive cflush cp_init es.

Ltac fr := repeat split; intros; try discriminate; reflexivity.
Lemma cp_frames : cls_frames C.
Proof.
  split; intros; unfold frame; cbn [cp_cls c_compose_timer c_process_counter c_compose_gauge c_compose_meter].
  - unfold cp_compose_timer. unM. destruct (p_timer s !! k) as [t|] eqn:Et; cbn.
    + rewrite Et. destruct (timer_update E t d (p_w s)). fr.
    + rewrite lookup_insert. destruct (timer_update E _ d _). fr.
  - unfold cp_process_counter. destruct fs as [|f0 fs]; [fr|]. destruct (float_of f0); fr.
  - fr.
  - unfold compose_meter. unM. destruct (p_meter s !! k) eqn:Em; cbn.
    + rewrite Em. fr.
    + rewrite lookup_insert. fr.
Qed.

Lemma ccounter_one m key (s : cst) :
  p_counter (creceive m s) !! key =
  match view (B "c") m key with
  | Some v => Some (counter_mark (default (counter_new key prefix) (p_counter s !! key)) v)
  | None => p_counter s !! key
  end.
Proof.
  unfold creceive, view. rewrite process_proj by apply proj_counter.
  destruct (decode m) as [[[t raw] fields]|] eqn:Ed; [|reflexivity].
  destruct (decode_cons _ _ _ _ Ed) as (f0 & l & ->).
  destruct (str_eqb t (B "c")) eqn:Et.
  - apply str_eqb_eq in Et; subst t. change (known_type C (B "c")) with true. cbv beta iota.
    unfold handler. change (str_eqb (B "c") (B "c")) with true.
    cbv beta iota. cbn [c_process_counter cp_cls cp_process_counter andb].
    destruct (float_of f0) as [d|] eqn:Ef; [|destruct (str_eqb (normalize_key raw) key); reflexivity].
    unfold cp_compose_counter. unM. cbn. destruct (str_eqb (normalize_key raw) key) eqn:Ek.
    + apply str_eqb_eq in Ek; subst key. rewrite lookup_insert. destruct (p_counter s !! normalize_key raw); reflexivity.
    + apply str_eqb_neq in Ek. apply lookup_insert_ne; auto.
  - cbn [andb]. destruct (known_type C t); [|reflexivity].
    pose proof (handler_frame E C cp_frames m t (normalize_key raw) f0 l (set_w (snd (now E (p_w s))) s)) as Hh.
    rewrite Et in Hh. destruct Hh as (_ & Hh & _). rewrite Hh by auto. reflexivity.
Qed.
Lemma cgauge_one m key (s : cst) :
  p_gauge (creceive m s) !! key =
  match view (B "g") m key with
  | Some v => Some (gauge_mark (default (gauge_new key prefix) (p_gauge s !! key)) v)
  | None => p_gauge s !! key
  end.
Proof.
  unfold creceive, view. rewrite process_proj by apply proj_gauge.
  destruct (decode m) as [[[t raw] fields]|] eqn:Ed; [|reflexivity].
  destruct (decode_cons _ _ _ _ Ed) as (f0 & l & ->).
  destruct (str_eqb t (B "g")) eqn:Et.
  - apply str_eqb_eq in Et; subst t. change (known_type C (B "g")) with true. cbv beta iota.
    unfold handler. change (str_eqb (B "g") (B "c")) with false. change (str_eqb (B "g") (B "ms")) with false.
    change (str_eqb (B "g") (B "g")) with true.
    cbv beta iota. unfold process_gauge_metric. cbn [andb].
    destruct (float_of f0) as [d|] eqn:Ef.
    + rewrite (float_one_part _ _ Ef). cbn [c_compose_gauge cp_cls]. unfold cp_compose_gauge. unM. cbn.
      destruct (str_eqb (normalize_key raw) key) eqn:Ek.
      * apply str_eqb_eq in Ek; subst key. rewrite lookup_insert. destruct (p_gauge s !! normalize_key raw); reflexivity.
      * apply str_eqb_neq in Ek. apply lookup_insert_ne; auto.
    + destruct (negb _); destruct (str_eqb (normalize_key raw) key); reflexivity.
  - cbn [andb]. destruct (known_type C t); [|reflexivity].
    pose proof (handler_frame E C cp_frames m t (normalize_key raw) f0 l (set_w (snd (now E (p_w s))) s)) as Hh.
    rewrite Et in Hh. destruct Hh as (_ & _ & Hh & _). rewrite Hh by auto. reflexivity.
Qed.
(** a timer line updates the timer, creating it first; [w] is the state of the
    clock and the random numbers at that moment *)
Lemma ctimer_one m key (s : cst) :
  match view (B "ms") m key with
  | Some d => exists w, p_timer (creceive m s) !! key =
      Some (match p_timer s !! key with
            | Some t => fst (timer_update E t d w)
            | None => fst (timer_update E (fst (timer_new E key prefix w)) d (snd (timer_new E key prefix w)))
            end)
  | None => p_timer (creceive m s) !! key = p_timer s !! key
  end.
Proof.
  unfold creceive, view. rewrite process_proj by apply proj_timer.
  destruct (decode m) as [[[t raw] fields]|] eqn:Ed; [|reflexivity].
  destruct (decode_cons _ _ _ _ Ed) as (f0 & l & ->).
  destruct (str_eqb t (B "ms")) eqn:Et.
  - apply str_eqb_eq in Et; subst t. change (known_type C (B "ms")) with true. cbv beta iota.
    unfold handler. change (str_eqb (B "ms") (B "c")) with false. change (str_eqb (B "ms") (B "ms")) with true.
    cbv beta iota. unfold process_timer_metric. cbn [andb].
    destruct (float_of f0) as [d|] eqn:Ef; [|destruct (str_eqb (normalize_key raw) key); reflexivity].
    cbn [c_compose_timer cp_cls]. unfold cp_compose_timer, bnd, mod_.
    set (s1 := set_w _ s). change (p_timer s1) with (p_timer s).
    destruct (p_timer s !! normalize_key raw) as [t|] eqn:Em.
    + cbn [fst snd]. change (p_timer s1) with (p_timer s). rewrite Em.
      destruct (timer_update E t d (p_w s1)) as [t' w'] eqn:Eu. cbn [fst p_timer set_timer set_w].
      destruct (str_eqb (normalize_key raw) key) eqn:Ek.
      * apply str_eqb_eq in Ek; subst key. exists (p_w s1). rewrite Em, Eu. apply lookup_insert.
      * apply str_eqb_neq in Ek. apply lookup_insert_ne; auto.
    + destruct (timer_new E (normalize_key raw) prefix (p_w s1)) as [t w1] eqn:Ew.
      cbn [fst snd p_timer set_timer set_w p_w]. rewrite lookup_insert.
      destruct (timer_update E t d w1) as [t' w'] eqn:Eu. cbn [fst p_timer set_timer set_w].
      destruct (str_eqb (normalize_key raw) key) eqn:Ek.
      * apply str_eqb_eq in Ek; subst key. exists (p_w s1). rewrite Em, Ew. cbn [fst snd]. rewrite Eu. apply lookup_insert.
      * apply str_eqb_neq in Ek. rewrite !lookup_insert_ne by auto. reflexivity.
  - cbn [andb]. destruct (known_type C t); [|reflexivity].
    pose proof (handler_frame E C cp_frames m t (normalize_key raw) f0 l (set_w (snd (now E (p_w s))) s)) as Hh.
    rewrite Et in Hh. destruct Hh as (Hh & _). rewrite Hh by auto. reflexivity.
Qed.
Lemma cmeter_one m key (s : cst) :
  p_meter (creceive m s) !! key =
  match view (B "m") m key with
  | Some v =>
      Some (match p_meter s !! key with
            | Some me => meter_mark me v
            | None => meter_mark (fst (meter_new E key prefix (snd (now E (p_w s))))) v
            end)
  | None => p_meter s !! key
  end.
Proof.
  unfold creceive, view. rewrite process_proj by apply proj_meter.
  destruct (decode m) as [[[t raw] fields]|] eqn:Ed; [|reflexivity].
  destruct (decode_cons _ _ _ _ Ed) as (f0 & l & ->).
  destruct (str_eqb t (B "m")) eqn:Et.
  - apply str_eqb_eq in Et; subst t. change (known_type C (B "m")) with true. cbv beta iota.
    unfold handler. change (str_eqb (B "m") (B "c")) with false. change (str_eqb (B "m") (B "ms")) with false.
    change (str_eqb (B "m") (B "g")) with false.
    change (str_eqb (B "m") (B "m")) with true. cbv beta iota. unfold process_meter_metric. cbn [andb].
    destruct (float_of f0) as [d|] eqn:Ef.
    + rewrite (float_one_part _ _ Ef). cbn [c_compose_meter cp_cls]. unfold compose_meter. unM.
      destruct (p_meter s !! normalize_key raw) as [me|] eqn:Em; cbn.
      * rewrite Em. cbn. destruct (str_eqb (normalize_key raw) key) eqn:Ek.
        -- apply str_eqb_eq in Ek; subst key. rewrite lookup_insert, Em. reflexivity.
        -- apply str_eqb_neq in Ek. apply lookup_insert_ne; auto.
      * rewrite lookup_insert. cbn. destruct (str_eqb (normalize_key raw) key) eqn:Ek.
        -- apply str_eqb_eq in Ek; subst key. rewrite lookup_insert, Em. reflexivity.
        -- apply str_eqb_neq in Ek. rewrite !lookup_insert_ne by auto. reflexivity.
    + destruct (negb _); destruct (str_eqb (normalize_key raw) key); reflexivity.
  - cbn [andb]. destruct (known_type C t); [|reflexivity].
    pose proof (handler_frame E C cp_frames m t (normalize_key raw) f0 l (set_w (snd (now E (p_w s))) s)) as Hh.
    rewrite Et in Hh. destruct Hh as (_ & _ & _ & Hh & _). rewrite Hh by auto. reflexivity.
Qed.

(** *** what a flush, in any interleaving, does to the reporters *)
Section untouched.
Context (RT : timer -> timer -> Prop) (RTrefl : forall t, RT t t) (RTtrans : forall a b c, RT a b -> RT b c -> RT a c)
  (RTrep : forall t ts, RT t (fst (timer_report t ts))).
Definition cflushed (s s' : cst) : Prop :=
  p_counter s' = p_counter s /\ p_gauge s' = p_gauge s /\ dom (p_timer s') = dom (p_timer s) /\
  dom (p_plug s') = dom (p_plug s) /\ dom (p_meter s') = dom (p_meter s) /\
  p_bad s' = p_bad s /\ p_info s' = p_info s /\
  forall k t, p_timer s !! k = Some t -> exists t', p_timer s' !! k = Some t' /\ RT t t'.
Lemma cflushed_refl s : cflushed s s.
Proof using RTrefl. unfold cflushed. repeat split; eauto. Qed.
Lemma cflushed_trans a b c : cflushed a b -> cflushed b c -> cflushed a c.
Proof using RTtrans.
  intros (A1 & A2 & A3 & A4 & A5 & A6 & A7 & A8) (B1 & B2 & B3 & B4 & B5 & B6 & B7 & B8). unfold cflushed. repeat split; try congruence.
  intros k m Hm. destruct (A8 k m Hm) as (m1 & H1 & R1). destruct (B8 k m1 H1) as (m2 & H2 & R2). eauto.
Qed.
Ltac fl := unfold cflushed; cbn; repeat split; eauto.
Lemma cflush_step i p : stepG cflushed (cflush i p).
Proof using RTrefl RTtrans RTrep.
  apply flush_step; try (intros; fl; fail); try (apply cflushed_refl); try (exact cflushed_trans).
  - intros i' ts. apply gdict_step; [apply cflushed_refl|intros; fl|].
    intros key v s Hv. destruct (counter_report v ts); [|apply cflushed_refl].
    split; [apply cflushed_refl|]. intros. apply cflushed_refl.
  - intros p' ts. apply gdict_step; [apply cflushed_refl|intros; fl|].
    intros key t s Hm. pose proof (RTrep t ts) as HR. destruct (timer_report t ts) as [t' r]. cbn [fst] in HR.
    assert (Hx : cflushed s (set_timer (<[key := t']> (p_timer s)) s)).
    { fl; [eapply dom_same; eauto|]. intros k m0 Hk. destruct (decide (key = k)) as [->|Hne].
      - rewrite lookup_insert. rewrite Hm in Hk. injection Hk as <-. eauto.
      - rewrite lookup_insert_ne by auto. eauto. }
    destruct r as [ms|e]; [|exact Hx]. split; [exact Hx|]. intros. apply cflushed_refl.
  - intros ts. apply gdict_step; [apply cflushed_refl|intros; fl|].
    intros key v s Hv. split; [apply cflushed_refl|]. intros. apply cflushed_refl.
  - intros ts. apply gdict_step; [apply cflushed_refl|intros; fl|].
    intros key m s Hm. destruct (meter_report m ts) as [m' r].
    assert (Hx : cflushed s (set_meter (<[key := m']> (p_meter s)) s)) by (fl; eapply dom_same; eauto).
    destruct r as [ms|e]; [|exact Hx]. split; [exact Hx|]. intros. apply cflushed_refl.
  - intros ts. apply gdict_step; [apply cflushed_refl|intros; fl|].
    intros key q s Hq. destruct (plug_flush E q ts (p_w s)) as [[q' r] w].
    assert (Hx : cflushed s (set_plug (<[key := q']> (p_plug s)) (set_w w s))) by (fl; eapply dom_same; eauto).
    destruct r as [ms|e]; [|exact Hx]. split; [exact Hx|]. intros. apply cflushed_refl.
Qed.
Lemma creached_history (P : list str -> cst -> Prop) :
  P [] cp_init -> (forall ls m s, P ls s -> P (ls ++ [m]) (creceive m s)) ->
  (forall ls s s', P ls s -> cflushed s s' -> P ls s') -> forall es, P (lines es) (creached es).
Proof using RTrefl RTtrans RTrep.
  intros H1 H2 H3 es. apply (gsys_history creceive cflush cflushed P); auto.
  - intros. apply cflush_step.
  - apply cflushed_refl.
  - exact cflushed_trans.
Qed.
End untouched.
End conf.

(** the value given by a line of type [t] for the name [key]; further fields are ignored *)
Definition value_line `{NN : Num} (t : str) (key m : str) (v : num) : Prop :=
  exists f0 fs, typed_line m t key (f0 :: fs) /\ reads f0 v.
Lemma picks_snoc_view `{NN : Num} t key ls l m : picks (value_line t key) ls l ->
  picks (value_line t key) (ls ++ [m]) (l ++ match view t m key with Some v => [v] | None => [] end).
Proof.
  induction 1 as [|x a ls l Ha _ IH|x ls l Ha _ IH]; cbn [app].
  - destruct (view t m key) as [v|] eqn:Ev.
    + apply picks_hit; [apply view_iff; exact Ev|constructor].
    + apply picks_miss; [apply view_none; exact Ev|constructor].
  - apply picks_hit; assumption.
  - apply picks_miss; assumption.
Qed.
Lemma value_line_fun `{NN : Num} t key m v v' : value_line t key m v -> value_line t key m v' -> v = v'.
Proof. intros H1 H2. apply view_iff in H1, H2. congruence. Qed.

(** ** counters and gauges hold the last value received *)
Section last.
Context `{NN : Num} (E : env) (prefix internal : str) (plugins : list factory).
Notation creached := (creached E prefix internal plugins).
Definition anyt (a b : timer) : Prop := True.
Lemma ccounter_history es key : exists l, picks (value_line (B "c") key) (lines es) l /\
  p_counter (creached es) !! key = Counter key (dotted prefix) <$> last l.
Proof.
  apply (creached_history E prefix internal plugins anyt) with
    (P := fun ls (s : cst) => exists l, picks (value_line (B "c") key) ls l /\
            p_counter s !! key = Counter key (dotted prefix) <$> last l); try (unfold anyt; auto; fail).
  - exists []. split; [constructor|reflexivity].
  - intros ls m s (l & Hl & H). eexists. split; [apply (picks_snoc_view _ _ _ _ m Hl)|].
    rewrite ccounter_one. destruct (view (B "c") m key) as [v|]; [|rewrite app_nil_r; exact H].
    rewrite last_snoc. cbn. rewrite H. destruct (last l); reflexivity.
  - intros ls s s' (l & Hl & H) (F1 & _). exists l. split; [exact Hl|]. rewrite F1. exact H.
Qed.
Lemma cgauge_history es key : exists l, picks (value_line (B "g") key) (lines es) l /\
  p_gauge (creached es) !! key = Gauge key (dotted prefix) <$> last l.
Proof.
  apply (creached_history E prefix internal plugins anyt) with
    (P := fun ls (s : cst) => exists l, picks (value_line (B "g") key) ls l /\
            p_gauge s !! key = Gauge key (dotted prefix) <$> last l); try (unfold anyt; auto; fail).
  - exists []. split; [constructor|reflexivity].
  - intros ls m s (l & Hl & H). eexists. split; [apply (picks_snoc_view _ _ _ _ m Hl)|].
    rewrite cgauge_one. destruct (view (B "g") m key) as [v|]; [|rewrite app_nil_r; exact H].
    rewrite last_snoc. cbn. rewrite H. destruct (last l); reflexivity.
  - intros ls s s' (l & Hl & H) (_ & F1 & _). exists l. split; [exact Hl|]. rewrite F1. exact H.
Qed.
End last.
