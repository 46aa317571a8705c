(** Exceptions, malformed input and isolation, StatsD-compliant processor. *)
From Verif Require Import Base StrFacts Num Env Stats Glob Metrics Gen Processor
  LineSpec LineFacts FloatFacts ProcFacts ProcSpec ReceiveFacts.

Section facts.
Context `{NN : Num} {NL : NumLaw NN} (E : env) (plugins : list factory).
Notation C := (mp_cls E plugins).
Notation receive := (receive E plugins).

Lemma builtin_bool t : builtin t <->
  (str_eqb t (B "c") || str_eqb t (B "ms") || str_eqb t (B "g") || str_eqb t (B "m")) = true.
Proof. unfold builtin. rewrite !orb_true_iff, !str_eqb_eq. tauto. Qed.

Lemma known_type_iff t : known_type C t = true <-> builtin t \/ is_Some (plugin_table plugins !! t).
Proof.
  unfold known_type. cbn [c_plugins mp_cls]. rewrite orb_true_iff, <- builtin_bool.
  destruct (plugin_table plugins !! t) as [f|].
  - split; [intros _; right; eauto|auto].
  - split; [intros [H|H]; [auto|discriminate]|intros [H|[x H]]; [auto|discriminate]].
Qed.

(** result of a line of a built-in type *)
Lemma result_counter m raw fields (s : mst) : decode m = Some (B "c", raw, fields) ->
  snd (process E C m s) =
  match counter_parts fields with
  | Some (v, r) => snd (counter_add (normalize_key raw) v r (p_counter s))
  | None => Ok tt
  end.
Proof.
  intros Hd. rewrite process_result, Hd. change (known_type C (B "c")) with true. cbv beta iota.
  rewrite handler_mp_counter by (eapply decode_len; eauto).
  destruct (counter_parts fields) as [[v r]|]; [|reflexivity]. cbn.
  destruct (counter_add (normalize_key raw) v r (p_counter s)); reflexivity.
Qed.
Lemma result_timer m raw fields (s : mst) : decode m = Some (B "ms", raw, fields) ->
  snd (process E C m s) = Ok tt.
Proof.
  intros Hd. rewrite process_result, Hd. change (known_type C (B "ms")) with true. cbv beta iota.
  destruct (decode_cons _ _ _ _ Hd) as (f0 & l & ->). unfold handler.
  change (str_eqb (B "ms") (B "c")) with false. change (str_eqb (B "ms") (B "ms")) with true. cbv beta iota.
  unfold process_timer_metric. destruct (float_of f0); reflexivity.
Qed.
Lemma result_gauge m raw f0 l (s : mst) : decode m = Some (B "g", raw, f0 :: l) ->
  snd (process E C m s) =
  match float_of f0 with
  | Some _ => Ok tt
  | None => if has ":" f0 then Ok tt else Exn UnboundLocalError
  end.
Proof.
  intros Hd. rewrite process_result, Hd. change (known_type C (B "g")) with true. cbv beta iota.
  unfold handler.
  change (str_eqb (B "g") (B "c")) with false. change (str_eqb (B "g") (B "ms")) with false.
  change (str_eqb (B "g") (B "g")) with true. cbv beta iota.
  unfold process_gauge_metric. destruct (float_of f0) as [x|] eqn:Ef.
  - rewrite (float_one_part _ _ Ef). reflexivity.
  - destruct (has ":" f0) eqn:Eh.
    + assert ((length (split_on ":" f0) =? 1)%nat = false) as ->; [|reflexivity].
      apply Nat.eqb_neq. intros Hl. apply has_In in Eh.
      pose proof (join_split_on ":" f0) as Hj. pose proof (split_on_no_sep ":" f0) as Hn.
      destruct (split_on ":" f0) as [|w [|w' ws]]; simpl in Hl; try lia.
      cbn in Hj. subst w. inversion Hn; subst. contradiction.
    + apply has_not_In in Eh. rewrite split_on_word by auto. reflexivity.
Qed.
Lemma result_meter m raw f0 l (s : mst) : decode m = Some (B "m", raw, f0 :: l) ->
  snd (process E C m s) =
  match float_of f0 with
  | Some _ => Ok tt
  | None => if has ":" f0 then Ok tt else Exn UnboundLocalError
  end.
Proof.
  intros Hd. rewrite process_result, Hd. change (known_type C (B "m")) with true. cbv beta iota.
  unfold handler.
  change (str_eqb (B "m") (B "c")) with false. change (str_eqb (B "m") (B "ms")) with false.
  change (str_eqb (B "m") (B "g")) with false. change (str_eqb (B "m") (B "m")) with true. cbv beta iota.
  unfold process_meter_metric. destruct (float_of f0) as [x|] eqn:Ef.
  - rewrite (float_one_part _ _ Ef). cbn [c_compose_meter mp_cls]. unfold compose_meter. unM.
    destruct (p_meter s !! normalize_key raw); reflexivity.
  - destruct (has ":" f0) eqn:Eh.
    + assert ((length (split_on ":" f0) =? 1)%nat = false) as ->; [|reflexivity].
      apply Nat.eqb_neq. intros Hl. apply has_In in Eh.
      pose proof (join_split_on ":" f0) as Hj. pose proof (split_on_no_sep ":" f0) as Hn.
      destruct (split_on ":" f0) as [|w [|w' ws]]; simpl in Hl; try lia.
      cbn in Hj. subst w. inversion Hn; subst. contradiction.
    + apply has_not_In in Eh. rewrite split_on_word by auto. reflexivity.
Qed.

(** plugin lines *)
Lemma sli_rejects_iff (x : sli) fields : fields <> [] ->
  (snd (sli_process x fields) = Exn ValueError <-> sli_rejects fields) /\
  (snd (sli_process x fields) = Exn ValueError \/ snd (sli_process x fields) = Ok tt).
Proof.
  intros Hne. unfold sli_process, sli_rejects.
  destruct fields as [|a l]; [congruence|].
  assert (Hcase : (exists b c, l = [b; c]) \/ (forall b c, l <> [b; c])).
  { destruct l as [|b [|c [|d l]]]; [right; easy|right; easy|left; eauto|right; easy]. }
  destruct Hcase as [(b & c & ->)|Hn].
  - destruct (float_of c) as [y|] eqn:Ec.
    + assert (Hc : ~ not_a_number c).
      { intros H. apply float_of_none in H. congruence. }
      destruct (str_eqb a (B "error")) eqn:Ea.
      * apply str_eqb_eq in Ea. cbn. split; [|auto]. split; [discriminate|].
        intros [(a' & b' & c' & [= <- <- <-] & H)|(a' & l' & [= <- <-] & H & _)]; contradiction.
      * apply str_eqb_neq in Ea. destruct (float_of a) as [v|] eqn:Efa; cbn; (split; [|auto]).
        -- split; [discriminate|].
           intros [(a' & b' & c' & [= <- <- <-] & H)|(a' & l' & [= <- <-] & _ & H)]; [contradiction|].
           apply float_of_none in H. congruence.
        -- split; [|reflexivity]. intros _. right. exists a, [b; c]. repeat split; auto.
           apply float_of_none; auto.
    + cbn. split; [|auto]. split; [|reflexivity]. intros _. left. exists a, b, c. split; [auto|].
      apply float_of_none; auto.
  - assert (Hs : (match a :: l with
              | [_; _; f] => match float_of f with Some x => Ok x | None => Exn ValueError end
              | _ => Ok n1
              end) = Ok n1).
    { destruct l as [|b [|c [|d l]]]; try reflexivity. exfalso; eapply Hn; reflexivity. }
    rewrite Hs.
    destruct (str_eqb a (B "error")) eqn:Ea.
    + apply str_eqb_eq in Ea. cbn. split; [|auto]. split; [discriminate|].
      intros [(a' & b' & c' & [= _ Hl] & H)|(a' & l' & [= <- <-] & H & _)]; [subst; exfalso; eapply Hn; eauto|contradiction].
    + apply str_eqb_neq in Ea. destruct (float_of a) as [v|] eqn:Efa; cbn; (split; [|auto]).
      * split; [discriminate|].
        intros [(a' & b' & c' & [= _ Hl] & H)|(a' & l' & [= <- <-] & _ & H)]; [subst; exfalso; eapply Hn; eauto|].
        apply float_of_none in H. congruence.
      * split; [|reflexivity]. intros _. right. exists a, l. repeat split; auto.
        apply float_of_none; auto.
Qed.

(** Will this plugin metric be an SLI metric: the existing one decides, else the
    plugin registered for the type *)
Definition hits_sli (s : mst) (t key : str) : Prop :=
  (exists x, p_plug s !! key = Some (PSli x)) \/
  (p_plug s !! key = None /\ exists cfg, plugin_table plugins !! t = Some (FSli cfg)).
(** building a new SLI metric fails: a head pattern is not a valid pattern *)
Definition build_fails (s : mst) (t key : str) (e : exn) : Prop :=
  p_plug s !! key = None /\ exists cfg, plugin_table plugins !! t = Some (FSli cfg) /\
    sli_conditions (sli_path (B "stats.SLI") key) cfg ∅ = Exn e.

Lemma dmetric_process_ok d fields w : fields <> [] -> snd (fst (dmetric_process E d fields w)) = Ok tt.
Proof. destruct fields; [easy|]. intros _. reflexivity. Qed.

Lemma result_plugin m t raw fields (s : mst) e : decode m = Some (t, raw, fields) -> ~ builtin t ->
  is_Some (plugin_table plugins !! t) ->
  (snd (process E C m s) = Exn e <->
   build_fails s t (normalize_key raw) e \/
   (~ (exists e', build_fails s t (normalize_key raw) e') /\
    hits_sli s t (normalize_key raw) /\ sli_rejects fields /\ e = ValueError)).
Proof.
  intros Hd Hb [f Hf]. rewrite process_result, Hd.
  assert (known_type C t = true) as -> by (apply known_type_iff; right; eauto).
  destruct (decode_cons _ _ _ _ Hd) as (f0 & l & ->).
  set (s1 := set_w (snd (now E (p_w s))) s). set (key := normalize_key raw).
  assert (Hh : handler E C m t key (f0 :: l) s1 = process_plugin_metric E C t key (f0 :: l) s1).
  { unfold handler. rewrite builtin_bool in Hb. 
    destruct (str_eqb t (B "c")); [exfalso; auto|]. destruct (str_eqb t (B "ms")); [exfalso; auto|].
    destruct (str_eqb t (B "g")); [exfalso; auto|]. destruct (str_eqb t (B "m")); [exfalso; auto|]. reflexivity. }
  rewrite Hh. unfold process_plugin_metric. unM. unfold hits_sli, build_fails. fold key.
  destruct (p_plug s !! key) as [p|] eqn:Ep; cbn.
  - rewrite Ep. destruct p as [x|d]; cbn.
    + destruct (sli_rejects_iff x (f0 :: l) ltac:(easy)) as [H1 H2].
      destruct (sli_process x (f0 :: l)) as [x' r]; cbn [fst snd] in *. split.
      * intros ->. right. destruct H2 as [H2|H2]; [|discriminate]. injection H2 as ->.
        split; [intros (e' & H & _); discriminate|]. split; [eauto|]. split; [apply H1; auto|auto].
      * intros [(H & _)|(_ & _ & H & ->)]; [discriminate|]. apply H1; auto.
    + split; [discriminate|]. intros [(H & _)|(_ & [(x & H)|(H & _)] & _)]; discriminate.
  - rewrite Hf. destruct f as [cfg|]; cbn [build_metric factory_name fst snd].
    + change (B "stats." ++ B "SLI") with (B "stats.SLI").
      destruct (sli_conditions (sli_path (B "stats.SLI") key) cfg ∅) as [cs|e0] eqn:Ec; cbn.
      * rewrite lookup_insert. cbn.
        set (x := sli_new (sli_path (B "stats.SLI") key) cs).
        destruct (sli_rejects_iff x (f0 :: l) ltac:(easy)) as [H1 H2].
        destruct (sli_process x (f0 :: l)) as [x' r]; cbn [fst snd] in *. split.
        -- intros ->. right. destruct H2 as [H2|H2]; [|discriminate]. injection H2 as ->.
           split; [intros (e' & _ & cfg' & [= <-] & H); congruence|].
           split; [right; eauto|]. split; [apply H1; auto|auto].
        -- intros [(_ & cfg' & [= <-] & H)|(_ & _ & H & ->)]; [congruence|]. apply H1; auto.
      * split.
        -- intros [= ->]. left. split; [auto|]. eauto.
        -- intros [(_ & cfg' & [= <-] & H)|(Hn & _)]; [congruence|].
           exfalso. apply Hn. exists e0. split; [auto|]. eauto.
    + destruct (dmetric_new E key _ _) as [d w']. cbn. rewrite lookup_insert. cbn. split; [discriminate|].
      intros [(_ & cfg & H & _)|(_ & [(x & H)|(_ & cfg & H)] & _)]; discriminate.
Qed.

Lemma bad_value_builtin m e : bad_value_raises m e -> exists t key fields, typed_line m t key fields /\ builtin t.
Proof. intros H. destruct H; do 3 eexists; (split; [eassumption|unfold builtin; auto]). Qed.

Theorem process_raises m (s : mst) e :
  snd (process E C m s) = Exn e <->
  bad_value_raises m e \/
  exists t key fields, typed_line m t key fields /\ ~ builtin t /\ is_Some (plugin_table plugins !! t) /\
    (build_fails s t key e \/
     (~ (exists e', build_fails s t key e') /\ hits_sli s t key /\ sli_rejects fields /\ e = ValueError)).
Proof.
  destruct (decode m) as [[[t raw] fields]|] eqn:Hd.
  2:{ rewrite process_result, Hd. split; [discriminate|].
      intros [H|(t & key & fs & H & _)].
      - apply bad_value_builtin in H as (t & key & fs & H & _).
        apply typed_line_decode in H as (raw & H & _). congruence.
      - apply typed_line_decode in H as (raw & H & _). congruence. }
  assert (Htl : typed_line m t (normalize_key raw) fields) by (apply typed_line_decode; eauto).
  assert (Huniq : forall t' k' f', typed_line m t' k' f' -> t' = t /\ k' = normalize_key raw /\ f' = fields).
  { intros t' k' f' H. destruct (typed_line_fun _ _ _ _ _ _ _ H Htl) as (-> & -> & ->). auto. }
  destruct (str_eqb t (B "c")) eqn:Ec.
  { apply str_eqb_eq in Ec; subst t. rewrite (result_counter _ _ _ _ Hd). split.
    - intros H. left. destruct (decode_fields _ _ _ _ Hd) as (f0 & [->|[f2 ->]]); cbn [counter_parts] in H.
      + destruct (float_of f0) as [v|]; [|discriminate]. unfold counter_add in H. cbn in H.
        rewrite one_not_zero in H. discriminate.
      + destruct (float_of f0) as [v|] eqn:Ef; [|discriminate].
        destruct (rate_match f2) as [g|] eqn:Eg; [|discriminate]. apply rate_match_spec in Eg.
        unfold counter_add in H. cbn in H. apply reads_iff in Ef.
        destruct (float_of g) as [r|] eqn:Er; cbn in H.
        * destruct (neqb r n0) eqn:Ez; [|discriminate]. injection H as <-. apply reads_iff in Er.
          eapply br_zero; eauto.
        * injection H as <-. apply float_of_none in Er. eapply br_rate; eauto.
    - intros [H|(t & key & fs & H & Hnb & _)].
      2:{ apply Huniq in H as (-> & _). exfalso. apply Hnb. unfold builtin; auto. }
      destruct H as [key f0 fs H _ _|key f0 fs H _ _|key f0 f2 run v H Hv Hr Hn|key f0 f2 run v r H Hv Hr Hx Hz];
        apply Huniq in H as (He & -> & <-); try discriminate; cbn [counter_parts];
        apply reads_iff in Hv; apply rate_match_spec in Hr; rewrite Hv, Hr; unfold counter_add; cbn.
      + apply float_of_none in Hn. rewrite Hn. reflexivity.
      + apply reads_iff in Hx. rewrite Hx, Hz. reflexivity. }
  destruct (str_eqb t (B "ms")) eqn:Ems.
  { apply str_eqb_eq in Ems; subst t. rewrite (result_timer _ _ _ _ Hd). split; [discriminate|].
    intros [H|(t & key & fs & H & Hnb & _)].
    - destruct H as [key f0 fs H _ _|key f0 fs H _ _|key f0 f2 run v H Hv Hr Hn|key f0 f2 run v r H Hv Hr Hx Hz];
        apply Huniq in H as (He & _); discriminate.
    - apply Huniq in H as (-> & _). exfalso. apply Hnb. unfold builtin; auto. }
  destruct (str_eqb t (B "g")) eqn:Eg.
  { apply str_eqb_eq in Eg; subst t. destruct (decode_cons _ _ _ _ Hd) as (f0 & l & ->).
    rewrite (result_gauge _ _ _ _ _ Hd). split.
    - intros H. left. destruct (float_of f0) eqn:Ef; [discriminate|].
      destruct (has ":" f0) eqn:Eh; [discriminate|]. injection H as <-.
      eapply br_gauge; [exact Htl|apply float_of_none; auto|apply has_not_In; auto].
    - intros [H|(t & key & fs & H & Hnb & _)].
      2:{ apply Huniq in H as (-> & _). exfalso. apply Hnb. unfold builtin; auto. }
      destruct H as [key g0 fs H Hn Hc|key g0 fs H _ _|key g0 f2 run v H Hv Hr Hn|key g0 f2 run v r H Hv Hr Hx Hz];
        apply Huniq in H as (He & -> & Hfs); try discriminate. injection Hfs as -> ->.
      apply float_of_none in Hn. rewrite Hn. apply has_not_In in Hc. rewrite Hc. reflexivity. }
  destruct (str_eqb t (B "m")) eqn:Em.
  { apply str_eqb_eq in Em; subst t. destruct (decode_cons _ _ _ _ Hd) as (f0 & l & ->).
    rewrite (result_meter _ _ _ _ _ Hd). split.
    - intros H. left. destruct (float_of f0) eqn:Ef; [discriminate|].
      destruct (has ":" f0) eqn:Eh; [discriminate|]. injection H as <-.
      eapply br_meter; [exact Htl|apply float_of_none; auto|apply has_not_In; auto].
    - intros [H|(t & key & fs & H & Hnb & _)].
      2:{ apply Huniq in H as (-> & _). exfalso. apply Hnb. unfold builtin; auto. }
      destruct H as [key g0 fs H Hn Hc|key g0 fs H Hn Hc|key g0 f2 run v H Hv Hr Hn|key g0 f2 run v r H Hv Hr Hx Hz];
        apply Huniq in H as (He & -> & Hfs); try discriminate. injection Hfs as -> ->.
      apply float_of_none in Hn. rewrite Hn. apply has_not_In in Hc. rewrite Hc. reflexivity. }
  assert (Hnb : ~ builtin t) by (rewrite builtin_bool, Ec, Ems, Eg, Em; discriminate).
  assert (Hnbv : ~ bad_value_raises m e).
  { intros H. apply bad_value_builtin in H as (t' & k' & f' & H & Hb). apply Huniq in H as (-> & _). contradiction. }
  destruct (plugin_table plugins !! t) as [f|] eqn:Ef.
  - rewrite (result_plugin _ _ _ _ s e Hd) by eauto. split.
    + intros H. right. exists t, (normalize_key raw), fields. rewrite Ef. repeat split; eauto.
    + intros [H|(t' & key & fs & H & _ & _ & H')]; [contradiction|]. apply Huniq in H as (-> & -> & ->). exact H'.
  - rewrite process_result, Hd. destruct (known_type C t) eqn:Ek.
    + apply known_type_iff in Ek as [Ek|[f Ek]]; [contradiction|congruence].
    + split; [discriminate|]. intros [H|(t' & key & fs & H & _ & [f H1] & _)]; [contradiction|].
      apply Huniq in H as (-> & _). congruence.
Qed.

(** ** malformed input (C03) *)
Definition agg_unchanged (s s' : mst) : Prop :=
  p_timer s' = p_timer s /\ p_counter s' = p_counter s /\ p_gauge s' = p_gauge s /\
  p_meter s' = p_meter s /\ p_plug s' = p_plug s.

(** lines that must only be logged *)
Inductive malformed (plugs : gmap str factory) (m : str) : Prop :=
| mf_shape : (forall key fields, ~ line_of m key fields) -> malformed plugs m
| mf_type t key fields : typed_line m t key fields -> ~ builtin t -> plugs !! t = None -> malformed plugs m
| mf_counter key f0 fs : typed_line m (B "c") key (f0 :: fs) -> not_a_number f0 -> malformed plugs m
| mf_timer key f0 fs : typed_line m (B "ms") key (f0 :: fs) -> not_a_number f0 -> malformed plugs m
| mf_rate key f0 f2 : typed_line m (B "c") key [f0; B "c"; f2] -> (forall run, ~ rate_text f2 run) -> malformed plugs m
| mf_gauge key f0 fs : typed_line m (B "g") key (f0 :: fs) -> not_a_number f0 -> malformed plugs m
| mf_meter key f0 fs : typed_line m (B "m") key (f0 :: fs) -> not_a_number f0 -> malformed plugs m.

Lemma unchanged_fail m (s : mst) : agg_unchanged s (fst (fail m s)) /\ p_bad (fst (fail m s)) = m :: p_bad s.
Proof. split; [repeat split|reflexivity]. Qed.

Lemma process_failing m (s : mst) :
  (forall t raw fields, decode m = Some (t, raw, fields) -> known_type C t = true ->
     forall s1, agg_unchanged s1 (fst (handler E C m t (normalize_key raw) fields s1)) /\
               p_bad (fst (handler E C m t (normalize_key raw) fields s1)) = m :: p_bad s1) ->
  agg_unchanged s (receive m s) /\ p_bad (receive m s) = m :: p_bad s.
Proof.
  intros H. unfold ReceiveFacts.receive, agg_unchanged.
  rewrite !process_proj by first [apply proj_timer|apply proj_counter|apply proj_gauge|apply proj_meter|apply proj_plug|apply proj_bad].
  destruct (decode m) as [[[t raw] fields]|] eqn:Hd; [|repeat split].
  destruct (known_type C t) eqn:Ek; [|repeat split].
  destruct (H _ _ _ eq_refl Ek (set_w (snd (now E (p_w s))) s)) as [(H1 & H2 & H3 & H4 & H5) H6].
  rewrite H1, H2, H3, H4, H5, H6. repeat split.
Qed.

Theorem malformed_ignored m (s : mst) : malformed (plugin_table plugins) m ->
  agg_unchanged s (receive m s) /\ p_bad (receive m s) = m :: p_bad s.
Proof.
  intros H. apply process_failing. intros t raw fields Hd Hk s1.
  assert (Htl : typed_line m t (normalize_key raw) fields) by (apply typed_line_decode; eauto).
  destruct H as [H|t' k' f' H Hnb Hp|k' f0 fs H Hn|k' f0 fs H Hn|k' f0 f2 H Hn|k' f0 fs H Hn|k' f0 fs H Hn];
    [exfalso; apply decode_Some in Hd as [Hd _]; eapply H; eauto|..];
    destruct (typed_line_fun _ _ _ _ _ _ _ Htl H) as (-> & -> & ->).
  - apply known_type_iff in Hk as [Hk|[f Hk]]; [contradiction|congruence].
  - rewrite handler_mp_counter by (eapply decode_len; eauto). apply float_of_none in Hn.
    assert (counter_parts (f0 :: fs) = None) as ->.
    { destruct fs as [|a [|b [|c l]]]; cbn; try rewrite Hn; reflexivity. }
    apply unchanged_fail.
  - unfold handler. change (str_eqb (B "ms") (B "c")) with false. change (str_eqb (B "ms") (B "ms")) with true. cbv beta iota.
    unfold process_timer_metric. apply float_of_none in Hn. rewrite Hn. apply unchanged_fail.
  - rewrite handler_mp_counter by (eapply decode_len; eauto).
    assert (counter_parts [f0; B "c"; f2] = None) as ->.
    { cbn. destruct (float_of f0); [|reflexivity]. destruct (rate_match f2) as [g|] eqn:Eg; [|reflexivity].
      apply rate_match_spec in Eg. exfalso; eapply Hn; eauto. }
    apply unchanged_fail.
  - unfold handler. change (str_eqb (B "g") (B "c")) with false. change (str_eqb (B "g") (B "ms")) with false.
    change (str_eqb (B "g") (B "g")) with true. cbv beta iota. unfold process_gauge_metric.
    apply float_of_none in Hn. rewrite Hn. destruct (negb _); [apply unchanged_fail|].
    apply (unchanged_fail m s1).
  - unfold handler. change (str_eqb (B "m") (B "c")) with false. change (str_eqb (B "m") (B "ms")) with false.
    change (str_eqb (B "m") (B "g")) with false. change (str_eqb (B "m") (B "m")) with true. cbv beta iota. unfold process_meter_metric.
    apply float_of_none in Hn. rewrite Hn. destruct (negb _); [apply unchanged_fail|].
    apply (unchanged_fail m s1).
Qed.

(** ** isolation (C07) *)
Definition gauges_of (key : str) (s : mst) : list num :=
  flat_map (fun '(v, k) => if str_eqb k key then [v] else []) (p_gauge s).

Lemma plug_step m t raw fields (s : mst) key : decode m = Some (t, raw, fields) ->
  key <> normalize_key raw -> p_plug (receive m s) !! key = p_plug s !! key.
Proof.
  intros Hd Hk. unfold ReceiveFacts.receive. rewrite process_proj by apply proj_plug. rewrite Hd.
  destruct (known_type C t) eqn:Ek; [|reflexivity].
  destruct (decode_cons _ _ _ _ Hd) as (f0 & l & ->). set (s1 := set_w _ s).
  destruct (str_eqb t (B "c") || str_eqb t (B "ms") || str_eqb t (B "g") || str_eqb t (B "m")) eqn:Eb.
  - pose proof (handler_frame E C (mp_frames E plugins) m t (normalize_key raw) f0 l s1) as Hh.
    rewrite Eb in Hh. destruct Hh as (_ & _ & _ & _ & Hh & _). rewrite Hh by reflexivity. reflexivity.
  - assert (Hh : handler E C m t (normalize_key raw) (f0 :: l) s1 = process_plugin_metric E C t (normalize_key raw) (f0 :: l) s1).
    { unfold handler. destruct (str_eqb t (B "c")); [discriminate|]. destruct (str_eqb t (B "ms")); [discriminate|].
      destruct (str_eqb t (B "g")); [discriminate|]. destruct (str_eqb t (B "m")); [discriminate|]. reflexivity. }
    rewrite Hh. unfold process_plugin_metric. unM.
    destruct (p_plug s !! normalize_key raw) as [p|] eqn:Ep; cbn.
    + rewrite Ep. destruct (plug_process E p (f0 :: l) _) as [[p' r] w']. cbn. rewrite lookup_insert_ne by auto. reflexivity.
    + destruct (plugin_table plugins !! t) as [f|]; [|reflexivity].
      destruct (build_metric E f _ _ _) as [[q|e] w']; cbn; [|reflexivity].
      rewrite lookup_insert. destruct (plug_process E q (f0 :: l) w') as [[p' r] w'']. cbn.
      rewrite !lookup_insert_ne by auto. reflexivity.
Qed.

Theorem isolation m t name fields (s : mst) : typed_line m t name fields ->
  let s' := receive m s in
  (forall key, (t <> B "c" \/ key <> name) -> p_counter s' !! key = p_counter s !! key) /\
  (forall key, (t <> B "ms" \/ key <> name) -> p_timer s' !! key = p_timer s !! key) /\
  (forall key, (t <> B "g" \/ key <> name) -> gauges_of key s' = gauges_of key s) /\
  (forall key, (t <> B "m" \/ key <> name) -> p_meter s' !! key = p_meter s !! key) /\
  (forall key, (builtin t \/ key <> name) -> p_plug s' !! key = p_plug s !! key).
Proof.
  intros Htl. apply typed_line_decode in Htl as (raw & Hd & <-). cbn zeta.
  split; [|split; [|split; [|split]]]; intros key Hk.
  - rewrite counter_step by apply _. unfold counter_view. rewrite Hd.
    destruct (str_eqb t (B "c") && str_eqb (normalize_key raw) key) eqn:Eb; [|reflexivity].
    apply andb_true_iff in Eb as [E1 E2]. apply str_eqb_eq in E1, E2. destruct Hk; congruence.
  - rewrite timer_one. unfold view. rewrite Hd.
    destruct (decode_cons _ _ _ _ Hd) as (f0 & l & ->).
    destruct (str_eqb t (B "ms") && str_eqb (normalize_key raw) key) eqn:Eb; [|reflexivity].
    apply andb_true_iff in Eb as [E1 E2]. apply str_eqb_eq in E1, E2. destruct Hk; congruence.
  - unfold gauges_of. rewrite gauge_one. rewrite flat_map_app.
    destruct (gauge_of m) as [|[v k] l] eqn:Eg; [apply app_nil_r|].
    unfold gauge_of in Eg. rewrite Hd in Eg. destruct (decode_cons _ _ _ _ Hd) as (f0 & l' & ->).
    destruct (str_eqb t (B "g")) eqn:Et; [|discriminate]. apply str_eqb_eq in Et.
    destruct (float_of f0); [|discriminate]. injection Eg as <- <- <-. cbn.
    destruct (str_eqb (normalize_key raw) key) eqn:Ek; [|apply app_nil_r].
    apply str_eqb_eq in Ek. destruct Hk; congruence.
  - rewrite meter_one. unfold view. rewrite Hd.
    destruct (decode_cons _ _ _ _ Hd) as (f0 & l & ->).
    destruct (str_eqb t (B "m") && str_eqb (normalize_key raw) key) eqn:Eb; [|reflexivity].
    apply andb_true_iff in Eb as [E1 E2]. apply str_eqb_eq in E1, E2. destruct Hk; congruence.
  - destruct (decide (key = normalize_key raw)) as [->|Hne]; [|eapply plug_step; eauto].
    destruct Hk as [Hb|Hk]; [|congruence]. unfold ReceiveFacts.receive. rewrite process_proj by apply proj_plug.
    rewrite Hd. destruct (decode_cons _ _ _ _ Hd) as (f0 & l & ->). destruct (known_type C t); [|reflexivity].
    pose proof (handler_frame E C (mp_frames E plugins) m t (normalize_key raw) f0 l (set_w (snd (now E (p_w s))) s)) as Hh.
    apply builtin_bool in Hb. rewrite Hb in Hh. destruct Hh as (_ & _ & _ & _ & Hh & _). rewrite Hh by reflexivity. reflexivity.
Qed.

(** ** receive statistics (C09) *)
Definition counted (t : str) (m : str) (s : mst) : Prop :=
  (exists key fields, typed_line m t key fields) /\ (builtin t \/ is_Some (plugin_table plugins !! t)) /\
  snd (process E C m s) = Ok tt.

Lemma btype_one m (s : mst) t :
  (counted t m s /\ p_btype (receive m s) !! t = Some (default 0 (p_btype s !! t) + 1)) \/
  (~ counted t m s /\ p_btype (receive m s) !! t = p_btype s !! t).
Proof.
  unfold ReceiveFacts.receive, counted. rewrite process_btype by apply mp_frames.
  destruct (decode m) as [[[t' raw] fields]|] eqn:Hd.
  - destruct (known_type C t') eqn:Ek.
    + destruct (snd (process E C m s)) as [[]|e] eqn:Er.
      * destruct (decide (t' = t)) as [->|Hne].
        -- left. split.
           ++ split; [exists (normalize_key raw), fields; apply typed_line_decode; eauto|].
              split; [apply known_type_iff; auto|auto].
           ++ rewrite lookup_insert. destruct (p_btype s !! t); reflexivity.
        -- right. split; [|apply lookup_insert_ne; auto].
           intros ((k & f & H) & _). apply typed_line_decode in H as (r & H & _). congruence.
      * right. split; [|reflexivity]. intros (_ & _ & H). discriminate.
    + right. split; [|reflexivity]. intros ((k & f & H) & Hk & _).
      apply typed_line_decode in H as (r & H & _). rewrite Hd in H. injection H as <- _ _.
      apply known_type_iff in Hk. congruence.
  - right. split; [|reflexivity]. intros ((k & f & H) & _). apply typed_line_decode in H as (r & H & _). congruence.
Qed.
End facts.
