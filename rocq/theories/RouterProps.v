(** Consequences of [route_spec]: dropping, redirecting, transparency. *)
From Verif Require Import Base StrFacts Num Env Stats Glob Metrics Gen Processor Configurable
  LineSpec LineFacts FloatFacts GlobFacts ProcFacts ProcSpec ReceiveFacts Client Router RouterSpec RouterFacts.

Section props.
Context (G : engine).

Lemma built_service j rws rs adds : built G true j rws rs adds -> Forall (fun r => snd r <> TTrue) rs.
Proof.
  intros H. induction H; constructor; [|assumption]. cbn [snd]. inversion H0; subst; discriminate.
Qed.
Lemma built_length j rws rs adds : built G true j rws rs adds -> length adds = redirects rws.
Proof.
  intros H. pose proof (built_service _ _ _ _ H) as Hs. induction H; [reflexivity|]. inversion_clear Hs.
  rewrite app_length, IHbuilt by assumption. rewrite (target_of_redirect G true _ _ _ _ H0 H2). reflexivity.
Qed.
Lemma built_rules_length sv j rws rs adds : built G sv j rws rs adds -> length rs = length rws.
Proof. intros H. induction H; cbn; congruence. Qed.

Lemma applies_all_app r : forall a b out ts,
  applies_all G r (a ++ b) out ts <->
  exists o1 t1 o2 t2, applies_all G r a o1 t1 /\ applies_all G r b o2 t2 /\ out = o1 ++ o2 /\ ts = t1 ++ t2.
Proof.
  induction a as [|m a IH]; intros b out ts.
  - cbn. split.
    + intros H. exists [], [], out, ts. repeat split; [constructor|exact H].
    + intros (? & ? & ? & ? & H & H2 & -> & ->). inversion H; subst. exact H2.
  - cbn. split.
    + intros H. inversion H as [|? ? here rest t1 t2 Ha Hr]; subst. apply IH in Hr as (o1 & u1 & o2 & u2 & H1 & H2 & -> & ->).
      exists (here ++ o1), (t1 ++ u1), o2, u2. rewrite !app_assoc. repeat split; [constructor; assumption|assumption].
    + intros (o1 & u1 & o2 & u2 & H1 & H2 & -> & ->). inversion H1 as [|? ? here rest t1 t2 Ha Hr]; subst.
      rewrite <- !app_assoc. constructor; [assumption|]. apply IH. eauto 10.
Qed.
Lemma routes_app : forall a b j ms out sent,
  routes G j (a ++ b) ms out sent <->
  exists mid s1 s2, routes G j a ms mid s1 /\ routes G (j + redirects a) b mid out s2 /\ sent = s1 ++ s2.
Proof.
  induction a as [|r a IH]; intros b j ms out sent.
  - cbn. rewrite Nat.add_0_r. split.
    + intros H. exists ms, [], sent. repeat split; [constructor|exact H].
    + intros (mid & s1 & s2 & H1 & H2 & ->). inversion H1; subst. exact H2.
  - cbn [app]. unfold redirects. cbn [map list_sum fold_right]. change (fold_right Nat.add 0%nat (map is_redirect a)) with (redirects a). split.
    + intros H. inversion H as [|? ? ? ? mid ? ts s' Ha Hr]; subst. apply IH in Hr as (mid' & s1 & s2 & H1 & H2 & ->).
      exists mid', (map (pair j) ts ++ s1), s2. rewrite app_assoc. split; [econstructor; eassumption|]. split; [|reflexivity].
      rewrite Nat.add_assoc. exact H2.
    + intros (mid' & s1 & s2 & H1 & H2 & ->). inversion H1 as [|? ? ? ? mid ? ts s' Ha Hr]; subst.
      rewrite <- app_assoc. econstructor; [exact Ha|]. apply IH. exists mid', s', s2. rewrite Nat.add_assoc in H2. auto.
Qed.
(** routing is a function *)
Lemma matches_fun ws m b b' : matches ws m b -> matches ws m b' -> b = b'.
Proof.
  intros H. revert b'. induction H; intros b' H'; inversion H'; subst; try reflexivity; try contradiction.
  f_equal. apply IHmatches. assumption.
Qed.
Lemma effect_fun tw m o t o' t' : effect G tw m o t -> effect G tw m o' t' -> o = o' /\ t = t'.
Proof.
  intros H H'. inversion H; subst; inversion H'; subst; try (split; congruence); try contradiction.
  all: try match goal with H : _ \/ _ |- _ => destruct H end; try contradiction.
  all: repeat match goal with H1 : rx_compile _ ?p = Ok ?a, H2 : rx_compile _ ?p = Ok ?b |- _ =>
         rewrite H1 in H2; injection H2 as ?; subst; try clear H1 end; try (split; congruence); congruence.
Qed.
Lemma applies_fun r m o t o' t' : applies G r m o t -> applies G r m o' t' -> o = o' /\ t = t'.
Proof.
  intros H H'. inversion H as [? ? ? Hm|? ? ? ? ? Hm He]; subst; inversion H' as [? ? ? Hm'|? ? ? ? ? Hm' He']; subst; auto;
    try (pose proof (matches_fun _ _ _ _ Hm Hm'); discriminate). eapply effect_fun; eassumption.
Qed.
Lemma applies_all_fun r ms o t : applies_all G r ms o t -> forall o' t', applies_all G r ms o' t' -> o = o' /\ t = t'.
Proof.
  intros H. induction H as [|m ms here rest t1 t2 Ha Hr IH]; intros o' t' H'; inversion H' as [|? ? here' rest' t1' t2' Ha' Hr']; subst; [auto|].
  destruct (applies_fun _ _ _ _ _ _ Ha Ha') as [-> ->]. destruct (IH _ _ Hr') as [-> ->]. auto.
Qed.
Lemma routes_fun rws : forall j ms o s o' s', routes G j rws ms o s -> routes G j rws ms o' s' -> o = o' /\ s = s'.
Proof.
  induction rws as [|r rws IH]; intros j ms o s o' s' H H'; inversion H as [|? ? ? ? mid ? ts s2 Ha Hr]; subst;
    inversion H' as [|? ? ? ? mid' ? ts' s2' Ha' Hr']; subst; [auto|].
  destruct (applies_all_fun _ _ _ _ Ha _ _ Ha') as [-> ->]. destruct (IH _ _ _ _ _ _ Hr Hr') as [-> ->]. auto.
Qed.

(** ** drop *)
Lemma drop_all cw ms : Forall (fun m => matches cw m true) ms -> applies_all G (cw, [B "drop"]) ms [] [].
Proof.
  intros H. induction H as [|m ms Hm _ IH]; [constructor|].
  apply (aa_cons G (cw, [B "drop"]) m ms [] [] [] []); [|exact IH]. apply ap_hit; [exact Hm|constructor].
Qed.
Lemma drop_routes pre cw post ms mid sent :
  routes G 0 pre ms mid sent -> Forall (fun m => matches cw m true) mid ->
  routes G 0 (pre ++ (cw, [B "drop"]) :: post) ms [] sent.
Proof.
  intros H Hd. apply routes_app. exists mid, sent, []. split; [exact H|]. split; [|symmetry; apply app_nil_r].
  apply (ro_rule G _ _ post mid [] [] [] []); [apply drop_all; exact Hd|]. apply routes_nil.
Qed.

(** ** redirects *)
Lemma redirect_effect tw m o ts : redirect tw <> None -> effect G tw m o ts -> o = [m] /\ ts = [text_of m].
Proof. intros Hr H. inversion H; subst; auto; exfalso; apply Hr; reflexivity. Qed.
Inductive picked (cw : list str) : list metric -> list metric -> Prop :=
| pi_end : picked cw [] []
| pi_yes m ms out : matches cw m true -> picked cw ms out -> picked cw (m :: ms) (m :: out)
| pi_no m ms out : matches cw m false -> picked cw ms out -> picked cw (m :: ms) out.
Lemma redirect_all cw tw ms o ts : redirect tw <> None -> applies_all G (cw, tw) ms o ts ->
  o = ms /\ exists hits, picked cw ms hits /\ ts = map text_of hits.
Proof.
  intros Hr H. induction H as [|m ms here rest t1 t2 Ha _ [-> (hits & Hp & ->)]]; [split; [reflexivity|exists []; split; [constructor|reflexivity]]|].
  inversion Ha as [? ? ? Hm|? ? ? ? ? Hm He]; subst.
  - split; [reflexivity|]. exists hits. split; [apply pi_no; assumption|reflexivity].
  - apply redirect_effect in He as [-> ->]; [|exact Hr]. split; [reflexivity|]. exists (m :: hits).
    split; [apply pi_yes; assumption|reflexivity].
Qed.
Lemma routes_links rws : forall j ms out sent, routes G j rws ms out sent ->
  Forall (fun it => (j <= fst it < j + redirects rws)%nat) sent.
Proof.
  induction rws as [|r rws IH]; intros j ms out sent H; inversion H as [|? ? ? ? mid ? ts s2 Ha Hr]; subst; [constructor|].
  unfold redirects. cbn [map list_sum fold_right]. change (fold_right Nat.add 0%nat (map is_redirect rws)) with (redirects rws).
  apply Forall_app. split.
  - assert (ts = [] \/ is_redirect r = 1%nat) as [-> | Hi].
    { clear -Ha. induction Ha as [|m ms here rest t1 t2 Ha _ IH]; [auto|].
      inversion Ha as [? ? ? Hm|cw tw ? ? ? Hm He]; subst; [exact IH|].
      inversion He; subst; try exact IH; right; reflexivity. }
    + constructor.
    + apply Forall_forall. intros it Hit. apply elem_of_list_fmap in Hit as (t & -> & _). cbn. lia.
  - eapply Forall_impl; [eapply IH, Hr|]. cbn. intros it. lia.
Qed.
Lemma texts_to_app i a b : texts_to i (a ++ b) = texts_to i a ++ texts_to i b.
Proof. unfold texts_to. rewrite filter_app, map_app. reflexivity. Qed.
Lemma texts_to_same i ts : texts_to i (map (pair i) ts) = ts.
Proof. unfold texts_to. induction ts as [|t ts IH]; [reflexivity|]. cbn [map]. rewrite filter_cons. cbn [fst]. rewrite decide_True by reflexivity. cbn. rewrite IH. reflexivity. Qed.
Lemma texts_to_none i sent : Forall (fun it => fst it <> i) sent -> texts_to i sent = [].
Proof. intros H. unfold texts_to. induction H as [|it sent H _ IH]; [reflexivity|]. rewrite filter_cons, decide_False by exact H. exact IH. Qed.
Lemma redirect_routes pre cw tw post ms out sent : redirect tw <> None ->
  routes G 0 (pre ++ (cw, tw) :: post) ms out sent ->
  exists mid sent1 hits sent2, routes G 0 pre ms mid sent1 /\ picked cw mid hits /\
    routes G (redirects pre + 1) post mid out sent2 /\ texts_to (redirects pre) sent = map text_of hits.
Proof.
  intros Hr H. apply routes_app in H as (mid & s1 & s2 & H1 & H2 & ->).
  inversion H2 as [|? ? ? ? mid' ? ts s3 Ha Hs]; subst. apply redirect_all in Ha as [-> (hits & Hp & ->)]; [|exact Hr].
  assert (Hi : is_redirect (cw, tw) = 1%nat) by (unfold is_redirect; cbn [snd]; destruct (redirect tw); [reflexivity|congruence]).
  rewrite Hi in Hs. cbn [Nat.add] in Hs.
  exists mid, s1, hits, s3. split; [exact H1|]. split; [exact Hp|]. split; [exact Hs|].
  rewrite !texts_to_app. cbn [Nat.add]. rewrite texts_to_same, (texts_to_none _ s1), (texts_to_none _ s3).
  - rewrite app_nil_r. reflexivity.
  - eapply Forall_impl; [eapply routes_links, Hs|]. cbn. intros it. lia.
  - eapply Forall_impl; [eapply routes_links, H1|]. cbn. intros it. lia.
Qed.

(** ** fields *)
Lemma effect_fields tw t k fs o ts : effect G tw (t, k, fs) o ts ->
  Forall (fun m => snd m = fs) o /\ Forall (fun x => x = text_of (t, k, fs)) ts.
Proof. intros H. inversion H; subst; split; repeat constructor. Qed.
Lemma applies_all_fields fs r ms o ts : applies_all G r ms o ts -> Forall (fun m => snd m = fs) ms ->
  Forall (fun m => snd m = fs) o /\ Forall (fun x => exists k, x = k ++ B ":" ++ barred fs) ts.
Proof.
  intros H Hf. induction H as [|m ms here rest t1 t2 Ha _ IH]; [split; constructor|].
  inversion Hf as [|? ? Hm Hf']; subst. destruct (IH Hf') as [I1 I2].
  destruct m as [[t k] fs']. cbn [snd] in *.
  inversion Ha as [? ? ? Hm'|cw tw ? ? ? Hm' He]; subst.
  - split; [constructor; [reflexivity|exact I1]|exact I2].
  - apply effect_fields in He as [E1 E2]. split; apply Forall_app; split; auto.
    eapply Forall_impl; [exact E2|]. intros x ->. exists k. reflexivity.
Qed.
Lemma routes_fields fs rws : forall j ms out sent, routes G j rws ms out sent -> Forall (fun m => snd m = fs) ms ->
  Forall (fun m => snd m = fs) out /\ Forall (fun it => exists k, snd it = k ++ B ":" ++ barred fs) sent.
Proof.
  induction rws as [|r rws IH]; intros j ms out sent H Hf; inversion H as [|? ? ? ? mid ? ts s2 Ha Hr]; subst; [split; [exact Hf|constructor]|].
  apply (applies_all_fields fs) in Ha as [Hm Ht]; [|exact Hf]. apply IH in Hr as [Ho Hs]; [|exact Hm].
  split; [exact Ho|]. apply Forall_app. split; [|exact Hs].
  apply Forall_forall. intros it Hit. apply elem_of_list_fmap in Hit as (t & -> & Hin).
  rewrite Forall_forall in Ht. apply Ht. exact Hin.
Qed.
(** without rewrite rules the keys do not change *)
Definition renames (r : rule_text) : Prop := exists args, snd r = B "rewrite" :: args.
Lemma routes_keys k0 rws : forall j ms out sent, routes G j rws ms out sent ->
  Forall (fun r => ~ renames r) rws -> Forall (fun m => snd (fst m) = k0) ms ->
  Forall (fun m => snd (fst m) = k0) out /\
  Forall (fun it => exists fs, snd it = k0 ++ B ":" ++ barred fs) sent.
Proof.
  induction rws as [|r rws IH]; intros j ms out sent H Hn Hk; inversion H as [|? ? ? ? mid ? ts s2 Ha Hr]; subst; [split; [exact Hk|constructor]|].
  inversion_clear Hn as [|? ? Hr1 Hn'].
  assert (Forall (fun m => snd (fst m) = k0) mid /\ Forall (fun x => exists fs, x = k0 ++ B ":" ++ barred fs) ts) as [Hm Ht].
  { clear -Ha Hr1 Hk. induction Ha as [|[[t k] fs] ms here rest t1 t2 Ha _ IH]; [split; constructor|].
    inversion Hk as [|? ? Hk1 Hk2]; subst. cbn [fst snd] in *. destruct (IH Hk2) as [I1 I2].
    inversion Ha as [? ? ? Hm'|cw tw ? ? ? Hm' He]; subst.
    - split; [constructor; [reflexivity|exact I1]|exact I2].
    - inversion He; subst; try (exfalso; apply Hr1; eexists; reflexivity);
        (split; [|]; repeat (apply Forall_cons; split); try reflexivity; try assumption; try (eexists; reflexivity)). }
  apply IH in Hr as [Ho Hs]; [|assumption|assumption]. split; [exact Ho|].
  apply Forall_app. split; [|exact Hs].
  apply Forall_forall. intros it Hit. apply elem_of_list_fmap in Hit as (t & -> & Hin).
  rewrite Forall_forall in Ht. apply Ht. exact Hin.
Qed.

(** ** nothing matches *)
Lemma routes_skip m rws : Forall (fun r => matches (fst r) m false) rws -> forall j, routes G j rws [m] [m] [].
Proof.
  intros H. induction H as [|[cw tw] rws Hm _ IH]; intros j; [constructor|].
  apply (ro_rule G j (cw, tw) rws [m] [m] [m] [] []); [|apply IH].
  apply (aa_cons G (cw, tw) m [] [m] [] [] []); [apply ap_skip; exact Hm|constructor].
Qed.

(** ** redirect without a service *)
Lemma first_true_raises {S} c (cw : list str) (s : @rst S) a m b : cond_of cw c ->
  Forall (fun m => matches cw m false) a -> matches cw m true ->
  rule_run G (c, TTrue) (a ++ m :: b) s = (s, Exn TypeError).
Proof.
  intros Hc Ha Hm. induction Ha as [|x a Hx _ IH]; cbn [app rule_run fst snd].
  - apply (matches_iff cw c m true Hc) in Hm. unfold bnd, lift_. rewrite Hm. destruct m as [[t k] fs]. reflexivity.
  - apply (matches_iff cw c x false Hc) in Hx. unfold bnd, lift_, ret in *. rewrite Hx. rewrite IH. reflexivity.
Qed.
Lemma rules_run_app {S} (a b : list (rule G)) : forall ms (s : @rst S) s1 o,
  rules_run G a ms s = (s1, Ok o) ->
  rules_run G (a ++ b) ms s = match o with Some ms1 => rules_run G b ms1 s1 | None => (s1, Ok None) end.
Proof.
  induction a as [|r a IH]; intros ms s s1 o H; cbn [app rules_run] in *.
  - injection H as <- <-. reflexivity.
  - destruct ms as [|m ms]; [injection H as <- <-; reflexivity|]. unfold bnd in *.
    destruct (rule_run G r (m :: ms) s) as [s2 [mid|e]]; [|discriminate]. apply IH. exact H.
Qed.
End props.

(** ** Transparency *)
Section transparent.
Context `{NN : Num} {TM CM GM : Type}.
Notation st := (pst TM CM GM).
Definition same (a b : st) : Prop := set_bad [] a = set_bad [] b.
Lemma same_cases a b : same a b -> b = set_bad (p_bad b) a.
Proof. destruct a, b. unfold same, set_bad. cbn. intros [=]; subst. reflexivity. Qed.
Lemma same_refl a : same a a. Proof. reflexivity. Qed.
Lemma same_set a x : same a (set_bad x a). Proof. destruct a; reflexivity. Qed.
Definition agree {A} (f g : M st A) : Prop :=
  forall a b, same a b -> same (fst (f a)) (fst (g b)) /\ snd (f a) = snd (g b).
Lemma agree_bnd {A B} (f f' : M st A) (k k' : A -> M st B) : agree f f' -> (forall a, agree (k a) (k' a)) ->
  agree (bnd f k) (bnd f' k').
Proof.
  intros Hf Hk a b H. destruct (Hf a b H) as [H1 H2]. unfold bnd.
  destruct (f a) as [s1 r1], (f' b) as [s2 r2]. cbn [fst snd] in *. subst r2. destruct r1; [apply Hk; exact H1|auto].
Qed.
(** methods that neither read nor write the list of rejected lines *)
Definition bfree {A} (f : M st A) : Prop := forall x s, f (set_bad x s) = (set_bad x (fst (f s)), snd (f s)).
Lemma bfree_agree {A} (f : M st A) : bfree f -> agree f f.
Proof.
  intros Hf a b H. apply same_cases in H. rewrite H, Hf. cbn [fst snd]. split; [apply same_set|reflexivity].
Qed.
Lemma bfree_bnd {A B} (f : M st A) (k : A -> M st B) : bfree f -> (forall a, bfree (k a)) -> bfree (bnd f k).
Proof.
  intros Hf Hk x s. unfold bnd. rewrite Hf. destruct (f s) as [s1 [a|e]]; cbn [fst snd]; [apply Hk|reflexivity].
Qed.
Lemma agree_fail m m' : agree (fail m : M st unit) (fail m').
Proof. intros a b H. destruct a, b. unfold same, fail, mod_, set_bad in *. cbn in *. injection H as ?; subst. auto. Qed.
Lemma agree_raise {A} e : agree (raise e : M st A) (raise e).
Proof. intros a b H. auto. Qed.
Ltac one := intros x [? ? ? ? ? ? ? ? ? ? ? ?]; unfold mod_; cbn.
Context (E : env).
Lemma bfree_time : bfree (time_ E : M st num).
Proof. one. unfold time_. cbn. destruct (now E p_w). reflexivity. Qed.
Lemma bfree_finish t x0 : bfree (finish_message E t x0 : M st unit).
Proof.
  apply bfree_bnd; [|intros []; apply bfree_bnd; [apply bfree_time|intros a]]; one; try reflexivity. destruct (_ !! t); reflexivity.
Qed.
Lemma bfree_plugin C t k items : bfree (process_plugin_metric E C t k items : M st unit).
Proof.
  one. unfold process_plugin_metric, bnd, get_, ret, raise. cbn.
  destruct (p_plug !! k) as [q|] eqn:Eq; cbn.
  - rewrite Eq. destruct (plug_process E q items p_w) as [[q' r] w]. reflexivity.
  - destruct (c_plugins C !! t) as [f|]; cbn; [|reflexivity].
    destruct (build_metric E f (c_prefix C (factory_name f)) k p_w) as [[q|e] w]; cbn; [|reflexivity].
    rewrite lookup_insert. destruct (plug_process E q items w) as [[q' r] w']. reflexivity.
Qed.
Lemma bfree_compose_meter p k v : bfree (compose_meter E p k v : M st unit).
Proof. apply bfree_bnd; [|intros []]; one; destruct (_ !! k); reflexivity. Qed.

(** a class whose own methods only look at the data *)
Definition plain_class (C : cls) : Prop :=
  (forall k v, bfree (c_compose_timer C k v)) /\ (forall k v, bfree (c_compose_gauge C k v)) /\
  (forall k v, bfree (c_compose_meter C k v)) /\ (forall k c m m', agree (c_process_counter C k c m) (c_process_counter C k c m')).
Lemma agree_message (C : cls) m m' t k fs : plain_class C ->
  agree (process_message E C m t k fs) (process_message E C m' t k fs).
Proof.
  intros (Ht & Hg & Hm & Hc).
  apply agree_bnd; [apply bfree_agree, bfree_time|]. intros start. destruct fs as [|f0 fs]; [apply agree_raise|].
  repeat match goal with |- agree (if ?b then _ else _) _ => destruct b end.
  - apply agree_bnd; [apply Hc|intros []; apply bfree_agree, bfree_finish].
  - apply agree_bnd; [|intros []; apply bfree_agree, bfree_finish]. unfold process_timer_metric.
    destruct (float_of f0); [apply bfree_agree, Ht|apply agree_fail].
  - apply agree_bnd; [|intros []; apply bfree_agree, bfree_finish]. unfold process_gauge_metric. destruct (negb _); [apply agree_fail|].
    destruct (float_of f0); [apply bfree_agree, Hg|]. apply agree_bnd; [apply agree_fail|intros []; apply agree_raise].
  - apply agree_bnd; [|intros []; apply bfree_agree, bfree_finish]. unfold process_meter_metric. destruct (negb _); [apply agree_fail|].
    destruct (float_of f0); [apply bfree_agree, Hm|]. apply agree_bnd; [apply agree_fail|intros []; apply agree_raise].
  - apply bfree_agree, bfree_bnd; [apply bfree_plugin|intros []; apply bfree_finish].
  - apply agree_fail.
Qed.
End transparent.

Section classes.
Context `{NN : Num} (E : env).
Ltac one := intros x [? ? ? ? ? ? ? ? ? ? ? ?]; unfold mod_; cbn.
Lemma mp_plain plugins : plain_class (mp_cls E plugins).
Proof.
  split; [|split; [|split]].
  - intros k v. one. reflexivity.
  - intros k v. one. reflexivity.
  - intros k v. apply bfree_compose_meter.
  - intros k c m m'. assert (Hm : forall v r, agree (mp_compose_counter k v r : M mst unit) (mp_compose_counter k v r)).
    { intros v r. apply bfree_agree, bfree_bnd; [one; destruct (_ !! k); reflexivity|intros []].
      apply bfree_bnd; [intros x s; unfold lift_; destruct (match r with Some _ => _ | None => _ end); reflexivity|intros q].
      apply bfree_bnd; [intros x s; unfold lift_; destruct (pydiv n1 q); reflexivity|intros i]. one. reflexivity. }
    cbn. unfold mp_process_counter. destruct c as [|f0 c]; [apply agree_raise|]. destruct (float_of f0); [|apply agree_fail].
    destruct c as [|f1 [|f2 [|]]]; try apply Hm. destruct (rate_match f2); [apply Hm|apply agree_fail].
Qed.
Lemma cp_plain prefix internal plugins : plain_class (cp_cls E prefix internal plugins).
Proof.
  split; [|split; [|split]].
  - intros k v. apply bfree_bnd; [|intros []]; one; destruct (_ !! k); try reflexivity.
    destruct (timer_update E t v p_w). reflexivity.
  - intros k v. one. reflexivity.
  - intros k v. apply bfree_compose_meter.
  - intros k [|f0 c] m m'; cbn; [apply agree_raise|]. destruct (float_of f0); [|apply agree_fail].
    apply bfree_agree. one. reflexivity.
Qed.
End classes.

(** a router none of whose conditions match is transparent *)
Section router.
Context `{NN : Num} {TM CM GM : Type} (E : env) (C : @cls NN TM CM GM) (G : engine).
Notation st := (pst TM CM GM).
Definition unmatched (rws : list rule_text) (m : str) : Prop :=
  forall t k fs, typed_line m t k fs -> Forall (fun r => matches (fst r) (t, k, fs) false) rws.
Lemma transparent_step rws rs m (s : @rst st) p : plain_class C -> whole G true rws rs s -> unmatched rws m ->
  same (r_proc s) p ->
  exists s' r, r_process G (process_message E C) rs m s = (s', r) /\ r_links s' = r_links s /\
    same (r_proc s') (fst (process E C m p)) /\ r = snd (process E C m p).
Proof.
  intros HC Hw Hu Hs. unfold r_process. rewrite base_process_decode, process_decode.
  destruct (decode m) as [[[t raw] fs]|] eqn:Ed.
  - assert (Ht : typed_line m t (normalize_key raw) fs) by (apply typed_line_decode; eauto).
    destruct (route_spec G (process_message E C) true rws rs m t (normalize_key raw) fs s Hw) as [H _].
    destruct (H _ _ (routes_skip G _ rws (Hu _ _ _ Ht) 0)) as (p' & r & Hh & ->).
    do 2 eexists. split; [reflexivity|]. cbn [r_links r_proc sends fold_left]. split; [reflexivity|].
    destruct (agree_message E C (text_of (t, normalize_key raw, fs)) m t (normalize_key raw) fs HC (r_proc s) p Hs) as [A1 A2].
    inversion Hh as [|? ? ? ? ? ? ? ? Hp Hh'|? ? ? ? ? ? ? Hp]; subst.
    + inversion Hh'; subst. rewrite Hp in A1, A2. auto.
    + rewrite Hp in A1, A2. auto.
  - do 2 eexists. split; [reflexivity|]. split; [reflexivity|]. split; [|reflexivity].
    cbn. eapply eq_trans; [exact Hs|]. destruct p; reflexivity.
Qed.
(** a sequence of lines, the caller catching what is raised; [outs] are the outcomes *)
Fixpoint feed {S} (f : str -> M S unit) (ms : list str) (s : S) : S * list (res unit) :=
  match ms with
  | [] => (s, [])
  | m :: ms' => let '(s1, r) := f m s in let '(s2, rs) := feed f ms' s1 in (s2, r :: rs)
  end.
Lemma transparent_all rws rs ms : forall (s : @rst st) p, plain_class C -> whole G true rws rs s -> Forall (unmatched rws) ms ->
  same (r_proc s) p ->
  let '(s', outs) := feed (r_process G (process_message E C) rs) ms s in
  let '(p', outs') := feed (process E C) ms p in
  same (r_proc s') p' /\ outs = outs' /\ r_links s' = r_links s.
Proof.
  induction ms as [|m ms IH]; intros s p HC Hw Hu Hs; cbn [feed]; [auto|].
  inversion_clear Hu as [|? ? Hm Hu'].
  destruct (transparent_step rws rs m s p HC Hw Hm Hs) as (s1 & r & -> & Hl & Hs1 & ->).
  destruct (process E C m p) as [p1 r1]. cbn [fst snd] in *.
  assert (Hw1 : whole G true rws rs s1) by (destruct Hw as (adds & ? & ? & ?); exists adds; rewrite Hl; auto).
  specialize (IH s1 p1 HC Hw1 Hu' Hs1). destruct (feed (r_process _ _ _) ms s1) as [s2 o2], (feed (process E C) ms p1) as [p2 o2'].
  destruct IH as (I1 & -> & I3). rewrite I3. auto.
Qed.
End router.

(** ** Reading a configuration, for examples *)
Definition rule_parse (line : str) : option rule_text :=
  match split_on2 "=" ">" line with [a; b] => Some (parts_of a, parts_of b) | _ => None end.
Lemma rules_by config rws : mapM rule_parse (filter nonempty (split_on c_nl config)) = Some rws -> rules_of config rws.
Proof.
  intros H. destruct (proj2 (split_on_iff c_nl config _) eq_refl) as (H1 & H2 & H3).
  exists (split_on c_nl config). rewrite filter_nonempty. repeat split; auto.
  apply mapM_Some_1 in H. eapply Forall2_impl; [exact H|]. intros line [cw tw] Hr. unfold rule_parse in Hr.
  destruct (split_on2 "=" ">" line) as [|a [|b [|]]] eqn:E; try discriminate. injection Hr as <- <-.
  apply arrow_iff in E as (-> & Ha & Hb). exists a, b. cbn [fst snd]. rewrite !words_of_iff. auto.
Qed.

(** ** From the router's own entry point *)
Section entry.
Context (G : engine) {S : Type} (inner : str -> str -> str -> list str -> M S unit).
Lemma whole_built config ls rs rws (s : @rst S) : build_rules G true config [] = (ls, Ok rs) -> rules_of config rws ->
  length (r_links s) = length ls -> whole G true rws rs s.
Proof using Type.
  clear inner.
  intros Hb Hr Hl. apply build_rules_iff in Hb as (rws' & Hr' & Hb).
  rewrite (rules_of_fun _ _ _ Hr Hr'). exists ls. split; [exact Hb|]. split; [eapply built_service, Hb|lia].
Qed.
Lemma process_typed rs m t k fs (s : @rst S) : typed_line m t k fs ->
  r_process G inner rs m s = route G inner rs m t k fs s.
Proof.
  intros H. apply typed_line_decode in H as (raw & Hd & <-). unfold r_process. rewrite base_process_decode, Hd. reflexivity.
Qed.
Lemma process_route config ls rs rws (s : @rst S) m t k fs out sent :
  build_rules G true config [] = (ls, Ok rs) -> rules_of config rws -> length (r_links s) = length ls ->
  typed_line m t k fs -> routes G 0 rws [(t, k, fs)] out sent ->
  exists s' r, r_process G inner rs m s = (s', r) /\ handed inner out (r_proc s) (r_proc s') r /\ r_bad s' = r_bad s /\
    forall i, r_links s' !! i = written (texts_to i sent) <$> r_links s !! i.
Proof.
  intros Hb Hr Hl Ht Hs. destruct (route_spec G inner true rws rs m t k fs s) as [H _]; [eapply whole_built; eassumption|].
  destruct (H _ _ Hs) as (p' & r & Hh & E). do 2 eexists. rewrite (process_typed _ _ _ _ _ _ Ht), E. split; [reflexivity|].
  cbn [r_proc r_bad r_links]. split; [exact Hh|]. split; [reflexivity|]. intros i. apply sends_links.
Qed.
Lemma process_stuck config ls rs rws (s : @rst S) m t k fs :
  build_rules G true config [] = (ls, Ok rs) -> rules_of config rws -> length (r_links s) = length ls ->
  typed_line m t k fs -> (~ exists out sent, routes G 0 rws [(t, k, fs)] out sent) ->
  exists s' e, r_process G inner rs m s = (s', Exn e) /\ r_proc s' = r_proc s.
Proof.
  intros Hb Hr Hl Ht Hs. destruct (route_spec G inner true rws rs m t k fs s) as [_ H]; [eapply whole_built; eassumption|].
  destruct (H Hs) as (sent & e & E). do 2 eexists. rewrite (process_typed _ _ _ _ _ _ Ht), E. split; [reflexivity|]. apply sends_proc.
Qed.
Lemma process_length config ls rs m (s : @rst S) :
  build_rules G true config [] = (ls, Ok rs) -> length (r_links s) = length ls ->
  length (r_links (fst (r_process G inner rs m s))) = length ls.
Proof.
  intros Hb Hl. unfold r_process. rewrite base_process_decode. destruct (decode m) as [[[t k] fs]|]; [|exact Hl].
  apply build_rules_iff in Hb as (rws & Hr & Hb). pose proof (built_service _ _ _ _ _ Hb) as Hs.
  unfold route, bnd. destruct (rules_run G rs _ s) as [s1 r1] eqn:E.
  apply (rules_run_proc G inner true rws rs ls 0 _ _ _ _ Hb Hs) in E as (sent & ->); [|lia].
  assert (Hl' : length (r_links (sends sent s)) = length ls) by (rewrite sends_length; exact Hl).
  destruct r1 as [[ms|]|e]; [|exact Hl'..]. destruct (hand_over inner ms (sends sent s)) as [s2 r2] eqn:Eh.
  apply hand_over_iff in Eh as (p' & _ & ->). exact Hl'.
Qed.
(** without a service *)
Lemma process_no_service config ls rs rws (s : @rst S) pre cw tw post m t k fs a x b :
  build_rules G false config [] = (ls, Ok rs) -> rules_of config rws -> rws = pre ++ (cw, tw) :: post ->
  redirect tw <> None -> Forall (fun r => redirect (snd r) = None) pre ->
  typed_line m t k fs -> routes G 0 pre [(t, k, fs)] (a ++ x :: b) [] ->
  Forall (fun y => matches cw y false) a -> matches cw x true ->
  r_process G inner rs m s = (s, Exn TypeError).
Proof.
  intros Hb Hr -> Hrd Hpre Ht Hs Ha Hx. rewrite (process_typed _ _ _ _ _ _ Ht).
  apply build_rules_iff in Hb as (rws' & Hr' & Hb). rewrite <- (rules_of_fun _ _ _ Hr Hr') in Hb. clear Hr' rws'.
  assert (Hsplit : forall j pre rs ls, Forall (fun r => redirect (snd r) = None) pre ->
    built G false j (pre ++ (cw, tw) :: post) rs ls ->
    exists rs1 c rs2, rs = rs1 ++ (c, TTrue) :: rs2 /\ built G false j pre rs1 [] /\ cond_of cw c /\
      Forall (fun r => snd r <> TTrue) rs1).
  { clear -Hrd. intros j pre. revert j. induction pre as [|[pc pt] pre IH]; intros j rs ls Hp H; cbn [app] in H;
      inversion H as [|? ? ? c t add ? rs0 adds Hc Ht Hb]; subst.
    - exists [], c, rs0. split; [|split; [constructor|split; [exact Hc|constructor]]]. cbn. repeat f_equal.
      inversion Ht; subst; try reflexivity; try (exfalso; apply Hrd; reflexivity); try discriminate.
    - inversion_clear Hp as [|? ? Hp1 Hp2].
      assert (add = [] /\ t <> TTrue) as [-> Hn] by (inversion Ht; subst; try discriminate; split; try reflexivity; discriminate).
      cbn [length] in Hb. rewrite Nat.add_0_r in Hb. destruct (IH _ _ _ Hp2 Hb) as (rs1 & c' & rs2 & -> & H1 & H2 & H3).
      exists ((c, t) :: rs1), c', rs2. split; [reflexivity|]. split; [|split; [exact H2|constructor; [exact Hn|exact H3]]].
      apply (built_cons G false j pc pt c t [] pre rs1 []); [exact Hc|exact Ht|]. cbn. rewrite Nat.add_0_r. exact H1. }
  destruct (Hsplit 0%nat pre rs ls Hpre Hb) as (rs1 & c & rs2 & -> & Hb1 & Hc & Hn).
  destruct (proj2 (rules_run_iff G inner false pre rs1 [] 0 [(t, k, fs)] s s (a ++ x :: b) Hb1 Hn ltac:(cbn; lia))) as (o & Ho & Hout).
  { exists []. split; [exact Hs|reflexivity]. }
  unfold route, bnd. pose proof (rules_run_app G rs1 ((c, TTrue) :: rs2) _ _ _ _ Ho) as Happ. unfold rule in *. rewrite Happ. clear Happ.
  destruct o as [ms|]; cbn in Hout; [|destruct a; discriminate]. subst ms. cbn [rules_run].
  destruct (a ++ x :: b) as [|y l] eqn:Ey; [destruct a; discriminate|]. rewrite <- Ey. unfold bnd.
  rewrite (first_true_raises G c cw s a x b Hc Ha Hx). reflexivity.
Qed.
End entry.

(** ** A toy engine for the examples: a pattern matches the keys it is a prefix of *)
Fixpoint toy_sub (pat repl key : str) : option str :=
  match pat, key with
  | [], _ => Some (repl ++ key)
  | c :: pat', d :: key' => if eqc c d then toy_sub pat' repl key' else None
  | _, [] => None
  end.
Definition toy_engine : engine :=
  Eng str (fun p => if nonempty p then Ok p else Exn ReError) (fun p k => starts_with p k)
      (fun p repl k => Ok (match toy_sub p repl k with Some k' => k' | None => k end)).
