(** Invariants of the compliant processor that hold in every interleaving:
    names stay in the Graphite alphabet and counts are conserved. *)
From Verif Require Import Base StrFacts Num Env Stats Glob Metrics Gen GenFacts Processor
  LineSpec LineFacts FloatFacts ProcFacts ProcSpec ReceiveFacts ReceiveFacts2 ReceiveFacts3 PlugFacts Sched.

Definition alpha (s : str) : Prop := all_in name_chars s.
Definition alphab (s : str) : bool := forallb (fun c => has c name_chars) s.
Lemma alphab_alpha s : alphab s = true -> alpha s.
Proof.
  unfold alphab, alpha, all_in. rewrite forallb_forall. intros H c Hc. apply in_bool. auto.
Qed.
Lemma alpha_app a b : alpha (a ++ b) <-> alpha a /\ alpha b.
Proof.
  unfold alpha, all_in. split.
  - intros H. split; intros c Hc; apply H; apply in_or_app; auto.
  - intros [H1 H2] c Hc. apply in_app_or in Hc. destruct Hc; auto.
Qed.
Ltac alit := apply alphab_alpha; vm_compute; reflexivity.
Ltac alpha := repeat match goal with |- alpha (_ ++ _) => apply alpha_app; split end; try alit; auto.

Lemma alpha_digits f n : alpha (digits_fuel f n).
Proof.
  revert n. induction f as [|f IH]; intros n; cbn [digits_fuel]; [intros c []|].
  assert (Hd : forall d, (d < 10)%N -> alpha [digit_char d]).
  { intros d Hd. assert (Hc : exists i, (i < 10)%nat /\ d = N.of_nat i) by (exists (N.to_nat d); lia).
    destruct Hc as (i & Hi & ->). do 10 (destruct i as [|i]; [alit|]). lia. }
  destruct (n <? 10)%N eqn:Hn.
  - apply Hd. apply N.ltb_lt. exact Hn.
  - apply alpha_app. split; [apply IH|apply Hd]. apply N.mod_lt. lia.
Qed.
Lemma alpha_show_Z z : alpha (show_Z z).
Proof.
  unfold show_Z, show_N. destruct z as [|p|p]; try apply alpha_digits.
  apply (alpha_app [c_minus]). split; [alit|apply alpha_digits].
Qed.

Section inv.
Context `{NN : Num} (E : env) (plugins : list factory).
Notation C := (mp_cls E plugins).

Definition meter_named (k : str) (m : meter) : Prop := me_prefix m = B "stats.meter." /\ me_name m = k.
Definition plug_named (k : str) (p : plug) : Prop :=
  match p with
  | PSli x => sl_name x = B "stats.SLI." ++ k
  | PDist d => dm_prefix d = B "stats.pdistinct." /\ dm_name d = k /\ ds_hashes (dm_counter d) <> []
  end.

(** names in some set [al] *)
Record InvG (al : str -> Prop) (s : mst) : Prop := {
  inv_c : forall k, is_Some (p_counter s !! k) -> al k;
  inv_t : forall k, is_Some (p_timer s !! k) -> al k;
  inv_g : Forall (fun '(v, k) => al k) (p_gauge s);
  inv_m : forall k m, p_meter s !! k = Some m -> al k /\ meter_named k m;
  inv_p : forall k p, p_plug s !! k = Some p -> al k /\ plug_named k p;
  inv_ty : forall t, is_Some (p_ptime s !! t) -> alpha t;
  inv_bt : forall t, is_Some (p_ptime s !! t) <-> is_Some (p_btype s !! t) }.

Lemma inv_initG al : InvG al mp_init.
Proof.
  split; cbn; try (intros k [x H]; rewrite lookup_empty in H; discriminate);
    try (intros k x H; rewrite lookup_empty in H; discriminate).
  - constructor.
  - intros t. rewrite !lookup_empty. split; intros [x H]; discriminate.
Qed.

Lemma inv_init : InvG alpha mp_init. Proof. apply inv_initG. Qed.

Lemma known_alpha t : known_type C t = true -> alpha t.
Proof.
  intros H. apply known_type_iff in H. destruct H as [[->|[->|[->| ->]]]|[f Hf]]; try alit.
  assert (Hp : forall l (m : gmap str factory), (forall t f, m !! t = Some f -> factory_type f = t) ->
     forall t f, fold_left (fun m f => <[factory_type f := f]> m) l m !! t = Some f -> factory_type f = t).
  { induction l as [|f0 l IH]; intros m Hm t0 f1; cbn [fold_left]; [apply Hm|].
    apply IH. intros t1 f2. destruct (decide (factory_type f0 = t1)) as [<-|Hne].
    - rewrite lookup_insert. intros [= <-]. reflexivity.
    - rewrite lookup_insert_ne by auto. apply Hm. }
  apply Hp in Hf; [|intros ? ? H; rewrite lookup_empty in H; discriminate].
  subst t. destruct f; alit.
Qed.

Lemma sli_update_name x v sz : sl_name (sli_update x v sz) = sl_name x.
Proof. destruct v; reflexivity. Qed.
Lemma sli_process_name x fields : sl_name (fst (sli_process x fields)) = sl_name x.
Proof.
  unfold sli_process. destruct (match fields with [_; _; f] => _ | _ => _ end); [|reflexivity].
  destruct fields as [|f l]; [reflexivity|]. destruct (str_eqb f (B "error")); [reflexivity|].
  destruct (float_of f); reflexivity.
Qed.
Lemma plug_process_named k p fields w : plug_named k p -> plug_named k (fst (fst (plug_process E p fields w))).
Proof.
  destruct p as [x|d]; cbn.
  - intros H. pose proof (sli_process_name x fields). destruct (sli_process x fields). cbn in *. congruence.
  - intros H. unfold dmetric_process. destruct fields as [|f l]; [exact H|]. unfold now. cbn.
    exact H.
Qed.
Lemma draw_tables_length n w : length (fst (draw_tables E n w)) = n.
Proof.
  revert w. induction n as [|n IH]; intros w; [reflexivity|]. cbn.
  specialize (IH (World (w_clk w) (w_rnd w) (w_dict w) (S (w_tbl w)))).
  destruct (draw_tables E n _). cbn in *. lia.
Qed.
Lemma build_named f k w q w' : build_metric E f (B "stats." ++ factory_name f) k w = (Ok q, w') ->
  plug_named k q.
Proof.
  destruct f as [cfg|]; cbn [build_metric factory_name].
  - destruct (sli_conditions _ cfg ∅) as [cs|e]; [|discriminate]. intros [= <- _].
    cbn [plug_named sli_new sli_clear sl_name]. reflexivity.
  - unfold dmetric_new, distinct_new. pose proof (draw_tables_length 32 w).
    destruct (draw_tables E 32 w) as [hs w2]. intros [= <- _]. cbn [plug_named dm_prefix dm_name dm_counter ds_hashes].
    cbn [fst] in H. repeat split; [intros ->; discriminate].
Qed.

Lemma receive_ptime m (s : mst) :
  (p_btype (receive E plugins m s) = p_btype s /\ p_ptime (receive E plugins m s) = p_ptime s) \/
  exists t raw fields n x, decode m = Some (t, raw, fields) /\ known_type C t = true /\
    p_btype (receive E plugins m s) = <[t := n]> (p_btype s) /\
    p_ptime (receive E plugins m s) = <[t := x]> (p_ptime s).
Proof. apply (process_stats E C (mp_frames E plugins) m s). Qed.

Lemma plug_receive m (s : mst) k p : p_plug (receive E plugins m s) !! k = Some p ->
  p_plug s !! k = Some p \/
  exists t raw fields f, decode m = Some (t, raw, fields) /\ k = normalize_key raw /\ ~ builtin t /\
    plugin_table plugins !! t = Some f /\
    ((exists p0 w, p_plug s !! k = Some p0 /\ p = fst (fst (plug_process E p0 fields w))) \/
     (exists q w w', p_plug s !! k = None /\
        build_metric E f (B "stats." ++ factory_name f) k w = (Ok q, w') /\
        p = fst (fst (plug_process E q fields w')))).
Proof.
  intros H. destruct (decode m) as [[[t raw] fields]|] eqn:Hd.
  2:{ left. unfold receive in H. rewrite process_proj in H by apply proj_plug. rewrite Hd in H. exact H. }
  destruct (decide (k = normalize_key raw)) as [->|Hne].
  2:{ left. rewrite (plug_step E plugins m t raw fields s k Hd Hne) in H. exact H. }
  assert (Hl : typed_line m t (normalize_key raw) fields) by (apply typed_line_decode; eauto).
  destruct (str_eqb t (B "c") || str_eqb t (B "ms") || str_eqb t (B "g") || str_eqb t (B "m")) eqn:Eb.
  { left. apply builtin_bool in Eb.
    destruct (isolation E plugins m t (normalize_key raw) fields s Hl) as (_ & _ & _ & _ & Hi).
    rewrite Hi in H by auto. exact H. }
  assert (Hb : ~ builtin t) by (rewrite builtin_bool, Eb; discriminate).
  destruct (plugin_table plugins !! t) as [f|] eqn:Hf.
  - right. exists t, raw, fields, f. repeat split; auto.
    pose proof (plug_one E plugins m t raw fields s f Hd Hb Hf) as Ho. cbn zeta in Ho. rewrite Ho in H.
    destruct (p_plug s !! normalize_key raw) as [p0|] eqn:Ep.
    + left. injection H as <-. eauto.
    + right. destruct (build_metric E f _ _ _) as [[q|e] w'] eqn:Eq; [|discriminate]. injection H as <-.
      do 3 eexists. split; [reflexivity|]. split; [exact Eq|reflexivity].
  - left. unfold receive in H. rewrite process_proj in H by apply proj_plug. rewrite Hd in H.
    assert (known_type C t = false) as Hk.
    { unfold known_type. rewrite Eb. cbn [c_plugins mp_cls]. rewrite Hf. reflexivity. }
    rewrite Hk in H. exact H.
Qed.

Lemma inv_receive m (s : mst) : InvG alpha s -> InvG alpha (receive E plugins m s).
Proof.
  intros H. split.
  - intros k Hk. rewrite counter_step in Hk. unfold counter_view in Hk.
    destruct (decode m) as [[[t raw] fields]|]; [|apply (inv_c _ s H); exact Hk].
    destruct (str_eqb t (B "c") && str_eqb (normalize_key raw) k) eqn:Eb; [|apply (inv_c _ s H); exact Hk].
    apply andb_prop in Eb. destruct Eb as [_ Eb]. apply str_eqb_eq in Eb. subst k. apply normalize_key_alphabet.
  - intros k Hk. rewrite timer_one in Hk. unfold view in Hk.
    destruct (decode m) as [[[t raw] [|f0 fields]]|]; try (apply (inv_t _ s H); exact Hk).
    destruct (str_eqb t (B "ms") && str_eqb (normalize_key raw) k) eqn:Eb; [|apply (inv_t _ s H); exact Hk].
    apply andb_prop in Eb. destruct Eb as [_ Eb]. apply str_eqb_eq in Eb. subst k. apply normalize_key_alphabet.
  - rewrite gauge_one. apply Forall_app. split; [apply (inv_g _ s H)|]. unfold gauge_of.
    destruct (decode m) as [[[t raw] [|f0 fields]]|]; try constructor.
    destruct (str_eqb t (B "g")); [|constructor]. destruct (float_of f0); [|constructor].
    constructor; [apply normalize_key_alphabet|constructor].
  - intros k me Hk. rewrite meter_one in Hk. unfold view in Hk.
    destruct (decode m) as [[[t raw] [|f0 fields]]|]; try (apply (inv_m _ s H); exact Hk).
    destruct (str_eqb t (B "m") && str_eqb (normalize_key raw) k) eqn:Eb; [|apply (inv_m _ s H); exact Hk].
    destruct (float_of f0); [|apply (inv_m _ s H); exact Hk].
    apply andb_prop in Eb. destruct Eb as [_ Eb]. apply str_eqb_eq in Eb. subst k.
    split; [apply normalize_key_alphabet|].
    destruct (p_meter s !! normalize_key raw) as [m0|] eqn:Em.
    + injection Hk as <-. apply (inv_m _ s H) in Em. destruct Em as [_ [H1 H2]]. split; exact H1 || exact H2.
    + injection Hk as <-. unfold meter_new, now. cbn. split; reflexivity.
  - intros k p Hk. apply plug_receive in Hk.
    destruct Hk as [Hk|(t & raw & fields & f & Hd & -> & Hb & Hf & [(p0 & w & Hp & ->)|(q & w & w' & _ & Hq & ->)])].
    + apply (inv_p _ s H). exact Hk.
    + split; [apply normalize_key_alphabet|]. apply plug_process_named. apply (inv_p _ s H) in Hp. tauto.
    + split; [apply normalize_key_alphabet|]. apply plug_process_named. eapply build_named. exact Hq.
  - intros t Ht. destruct (receive_ptime m s) as [[_ Hp]|(t' & raw & fields & n & x & Hd & Hk & _ & Hp)]; rewrite Hp in Ht.
    + apply (inv_ty _ s H). exact Ht.
    + destruct (decide (t' = t)) as [<-|Hne]; [apply known_alpha; exact Hk|].
      rewrite lookup_insert_ne in Ht by auto. apply (inv_ty _ s H). exact Ht.
  - intros t. destruct (receive_ptime m s) as [[Hb Hp]|(t' & raw & fields & n & x & Hd & Hk & Hb & Hp)]; rewrite Hp, Hb.
    + apply (inv_bt _ s H).
    + destruct (decide (t' = t)) as [<-|Hne]; [rewrite !lookup_insert; split; eauto|].
      rewrite !lookup_insert_ne by auto. apply (inv_bt _ s H).
Qed.
End inv.
Arguments inv_c {NN al} s.
Arguments inv_t {NN al} s.
Arguments inv_g {NN al} s.
Arguments inv_m {NN al} s.
Arguments inv_p {NN al} s.
Arguments inv_ty {NN al} s.
Arguments inv_bt {NN al} s.
Notation Inv := (InvG alpha).
