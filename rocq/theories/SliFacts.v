(** The SLI reporter over any history, and its rule configuration. *)
From Verif Require Import Base Num NumFacts Env Glob Metrics StrFacts GlobFacts SliConfig XQFacts.
From Coq Require Import QArith Qcanon Lia.
Open Scope Z_scope.

Section slifacts.
Context {NN : Num}.

(** ** Specification of samples *)
Inductive sample := SErr | SNum (value size : Num.num).
(** how many fields there are decides whether there is a size *)
Inductive size_of : list str -> Num.num -> Prop :=
| size_given a b c z : float_of c = Some z -> size_of [a; b; c] z
| size_default fields : length fields <> 3%nat -> size_of fields n1.
Inductive reads : list str -> sample -> Prop :=
| reads_error rest z : size_of (B "error" :: rest) z -> reads (B "error" :: rest) SErr
| reads_num f rest v z : f <> B "error" -> float_of f = Some v -> size_of (f :: rest) z -> reads (f :: rest) (SNum v z).

Definition sample_of (fields : list str) : option sample :=
  let size := match fields with
              | [_; _; f] => float_of f
              | _ => Some n1
              end in
  match size, fields with
  | Some z, f :: _ => if str_eqb f (B "error") then Some SErr
                      else match float_of f with Some v => Some (SNum v z) | None => None end
  | _, _ => None
  end.
Lemma size_of_iff fields z : size_of fields z <->
  match fields with [_; _; f] => float_of f | _ => Some n1 end = Some z.
Proof.
  split.
  - intros [a b c z' H|fs H]; [exact H|]. destruct fs as [|a [|b [|c [|d fs]]]]; try reflexivity. exfalso. apply H. reflexivity.
  - destruct fields as [|a [|b [|c [|d fs]]]]; intros H; try (injection H as <-; constructor; cbn; discriminate).
    constructor. exact H.
Qed.
Lemma sample_of_iff fields s : sample_of fields = Some s <-> reads fields s.
Proof.
  unfold sample_of. set (size := match fields with [_; _; f] => float_of f | _ => Some n1 end).
  split.
  - destruct size as [z|] eqn:Ez; [|discriminate]. destruct fields as [|f rest]; [discriminate|].
    assert (Hz : size_of (f :: rest) z) by (apply size_of_iff; exact Ez).
    destruct (str_eqb f (B "error")) eqn:Ef.
    + apply str_eqb_eq in Ef. subst f. intros [= <-]. econstructor; exact Hz.
    + apply str_eqb_neq in Ef. destruct (float_of f) as [v|] eqn:Ev; [|discriminate]. intros [= <-]. constructor; auto.
  - intros H. destruct H as [rest z H|f rest v z Hne Hv H]; apply size_of_iff in H; fold size in H; unfold size in *; rewrite H.
    + rewrite str_eqb_refl. reflexivity.
    + apply str_eqb_neq in Hne. rewrite Hne, Hv. reflexivity.
Qed.

(** ** What was processed, per interval *)
Inductive sop := SProc (fields : list str) | SFlush (ts : Z).
Definition samples (fs : list (list str)) : list sample := omap sample_of fs.
(** field lists processed before each flush (with its timestamp), and since the last *)
Fixpoint periods (ops : list sop) : list (list (list str) * Z) * list (list str) :=
  match ops with
  | [] => ([], [])
  | SProc f :: ops' => match periods ops' with
                       | ([], last) => ([], f :: last)
                       | ((fs, ts) :: ps, last) => ((f :: fs, ts) :: ps, last)
                       end
  | SFlush ts :: ops' => let '(ps, last) := periods ops' in (([], ts) :: ps, last)
  end.
Definition numeric (l : list sample) : list (Num.num * Num.num) :=
  omap (fun s => match s with SNum v z => Some (v, z) | SErr => None end) l.
Definition errors (l : list sample) : list sample :=
  List.filter (fun s => match s with SErr => true | _ => false end) l.
Definition passing (c : cond) (l : list sample) : list (Num.num * Num.num) :=
  List.filter (fun x => cond_holds c (fst x) (snd x)) (numeric l).
Definition expected (name : str) (conds : gmap str cond) (l : list sample) (ts : Z) : list dp :=
  map (fun kc => DP (name ++ B ".count_" ++ fst kc) (VI (Z.of_nat (length (passing (snd kc) l)))) ts) (map_to_list conds).
Definition totals (name : str) (l : list sample) (ts : Z) : list dp :=
  [DP (name ++ B ".count") (VI (Z.of_nat (length l))) ts;
   DP (name ++ B ".error") (VI (Z.of_nat (length (errors l)))) ts].

(** ** Running *)
Fixpoint srun (E : env) (ops : list sop) (s : sli) (w : world) : sli * list (list dp) * world :=
  match ops with
  | [] => (s, [], w)
  | SProc f :: ops' => srun E ops' (fst (sli_process s f)) w
  | SFlush ts :: ops' =>
      let '(s1, l, w1) := sli_flush E s ts w in
      let '(s2, ls, w2) := srun E ops' s1 w1 in (s2, l :: ls, w2)
  end.

Definition tallied (name : str) (conds : gmap str cond) (l : list sample) (s : sli) : Prop :=
  sl_name s = name /\ sl_conds s = conds /\
  sl_counts s = (fun c => Z.of_nat (length (passing c l))) <$> conds /\
  sl_count s = Z.of_nat (length l) /\ sl_error s = Z.of_nat (length (errors l)).

Lemma tallied_new name conds : tallied name conds [] (sli_new name conds).
Proof. repeat split. Qed.
Lemma tallied_clear name conds l s : tallied name conds l s -> tallied name conds [] (sli_clear s).
Proof. intros (Hn & Hc & _). unfold sli_clear. rewrite Hn, Hc. apply tallied_new. Qed.
Lemma passing_snoc c l x : passing c (l ++ [x]) = passing c l ++ passing c [x].
Proof. unfold passing, numeric. rewrite omap_app, List.filter_app. reflexivity. Qed.
Lemma errors_snoc l x : errors (l ++ [x]) = errors l ++ errors [x].
Proof. unfold errors. apply List.filter_app. Qed.

Lemma tallied_process name conds l s fields : tallied name conds l s ->
  match sample_of fields with
  | Some x => snd (sli_process s fields) = Ok tt /\ tallied name conds (l ++ [x]) (fst (sli_process s fields))
  | None => fst (sli_process s fields) = s /\
            snd (sli_process s fields) = Exn (match fields with [] => IndexError | _ => ValueError end)
  end.
Proof.
  intros (Hn & Hc & Hm & Hk & He).
  assert (Herr : tallied name conds (l ++ [SErr]) (sli_update s None n1)).
  { unfold tallied, sli_update; cbn [sl_name sl_conds sl_counts sl_count sl_error].
    rewrite Hm, Hk, He, errors_snoc, !app_length. cbn [errors List.filter length]. split; [exact Hn|]. split; [exact Hc|]. split; [|lia].
    apply map_fmap_ext. intros k c _. rewrite passing_snoc. cbn. rewrite app_nil_r. reflexivity. }
  assert (Hnum : forall v z, tallied name conds (l ++ [SNum v z]) (sli_update s (Some v) z)).
  { intros v z. unfold tallied, sli_update; cbn [sl_name sl_conds sl_counts sl_count sl_error].
    rewrite Hk, He, errors_snoc, !app_length. cbn [errors List.filter length]. split; [exact Hn|]. split; [exact Hc|]. split; [|lia].
    apply map_eq. intros k. rewrite map_lookup_imap, Hm, !lookup_fmap, Hc. destruct (conds !! k) as [c|]; [|reflexivity]. cbn.
    rewrite passing_snoc, app_length. unfold passing at 4. cbn. destruct (cond_holds c v z); cbn [length]; f_equal; lia. }
  assert (Hsame : forall z, sli_update s None z = sli_update s None n1) by reflexivity.
  unfold sample_of, sli_process.
  destruct fields as [|f [|b [|c [|d fields]]]]; cbv beta iota.
  - auto.
  - destruct (str_eqb f (B "error")); [auto|]. destruct (float_of f); [split; [reflexivity|apply Hnum]|auto].
  - destruct (str_eqb f (B "error")); [auto|]. destruct (float_of f); [split; [reflexivity|apply Hnum]|auto].
  - destruct (float_of c) as [z|]; [|auto]. destruct (str_eqb f (B "error")); [rewrite Hsame; auto|].
    destruct (float_of f); [split; [reflexivity|apply Hnum]|auto].
  - destruct (str_eqb f (B "error")); [auto|]. destruct (float_of f); [split; [reflexivity|apply Hnum]|auto].
Qed.

Lemma flush_items E name conds l s ts w : tallied name conds l s ->
  exists items, snd (fst (sli_flush E s ts w)) = items ++ totals name l ts /\ items ≡ₚ expected name conds l ts.
Proof.
  intros (Hn & Hc & Hm & Hk & He). unfold sli_flush, dict_keys. cbn [fst snd]. rewrite Hn, Hk, He.
  eexists. split; [reflexivity|]. unfold expected.
  set (g := fun k => match sl_counts s !! k with Some n => [DP (name ++ B ".count_" ++ k) (VI n) ts] | None => [] end).
  change (flat_map g (e_ord E (w_dict w) (map_to_list (sl_counts s)).*1) ≡ₚ
     map (fun kc : str * cond => DP (name ++ B ".count_" ++ fst kc) (VI (Z.of_nat (length (passing (snd kc) l)))) ts) (map_to_list conds)).
  rewrite (Permutation_flat_map g (e_ord_perm E (w_dict w) _)).
  assert (Hkeys : (map_to_list (sl_counts s)).*1 ≡ₚ (map_to_list conds).*1).
  { rewrite Hm, map_to_list_fmap. rewrite <- list_fmap_compose. apply Permutation_refl'. apply list_fmap_ext. intros i [k c] _. reflexivity. }
  rewrite (Permutation_flat_map g Hkeys).
  assert (Hall : Forall (fun kc => g (fst kc) = [DP (name ++ B ".count_" ++ fst kc) (VI (Z.of_nat (length (passing (snd kc) l)))) ts]) (map_to_list conds)).
  { apply Forall_forall. intros [k c] Hin. apply elem_of_map_to_list in Hin. unfold g. cbn [fst snd]. rewrite Hm, lookup_fmap, Hin. reflexivity. }
  clear -Hall. induction (map_to_list conds) as [|[k c] L IH]; [reflexivity|].
  apply Forall_cons in Hall as [H1 H2]. cbn [fst snd fmap list_fmap flat_map map] in *. rewrite H1. cbn [app]. constructor. apply IH. exact H2.
Qed.

Definition reported (name : str) (conds : gmap str cond) (p : list (list str) * Z) (out : list dp) : Prop :=
  exists items, out = items ++ totals name (samples (fst p)) (snd p) /\ items ≡ₚ expected name conds (samples (fst p)) (snd p).

Lemma samples_cons f fs : samples (f :: fs) = (match sample_of f with Some x => [x] | None => [] end) ++ samples fs.
Proof. unfold samples. cbn. destruct (sample_of f); reflexivity. Qed.

Definition more (l : list sample) (p : list (list str) * Z) : list sample := l ++ samples (fst p).
Lemma srun_spec E ops : forall name conds l s w, tallied name conds l s ->
  let '(s', outs, w') := srun E ops s w in
  let '(ps, last) := periods ops in
  match ps with
  | [] => outs = [] /\ tallied name conds (l ++ samples last) s'
  | (fs, ts) :: ps' =>
      exists out outs', outs = out :: outs' /\
        (exists items, out = items ++ totals name (l ++ samples fs) ts /\ items ≡ₚ expected name conds (l ++ samples fs) ts) /\
        Forall2 (reported name conds) ps' outs' /\ tallied name conds (samples last) s'
  end.
Proof.
  induction ops as [|[f|ts] ops IH]; intros name conds l s w Ht.
  - cbn. rewrite app_nil_r. auto.
  - cbn [srun periods]. pose proof (tallied_process _ _ _ _ f Ht) as Hp.
    assert (Ht' : tallied name conds (l ++ (match sample_of f with Some x => [x] | None => [] end)) (fst (sli_process s f))).
    { destruct (sample_of f); [apply Hp|]. rewrite app_nil_r. destruct Hp as [-> _]. exact Ht. }
    specialize (IH name conds _ _ w Ht'). destruct (srun E ops (fst (sli_process s f)) w) as [[s' outs] w'].
    destruct (periods ops) as [[|[fs ts] ps'] last]; cbv beta iota; rewrite samples_cons, app_assoc; exact IH.
  - cbn [srun periods]. pose proof (flush_items E _ _ _ _ ts w Ht) as Hf.
    assert (Hc : fst (fst (sli_flush E s ts w)) = sli_clear s) by (unfold sli_flush, dict_keys; reflexivity).
    destruct (sli_flush E s ts w) as [[s1 out] w1]. cbn [fst snd] in Hf, Hc. subst s1.
    specialize (IH name conds [] _ w1 (tallied_clear _ _ _ _ Ht)).
    destruct (srun E ops (sli_clear s) w1) as [[s' outs] w']. destruct (periods ops) as [ps last].
    exists out, outs. split; [reflexivity|]. cbn [samples omap list_omap fst]. rewrite app_nil_r. split; [exact Hf|].
    destruct ps as [|[fs ts'] ps'].
    + destruct IH as [-> H]. split; [constructor|exact H].
    + destruct IH as (out' & outs' & -> & Hr & Hrest & Hl). split; [|exact Hl]. constructor; [|exact Hrest].
      exact Hr.
Qed.
Lemma sli_history E name conds ops w :
  let '(s', outs, _) := srun E ops (sli_new name conds) w in
  Forall2 (reported name conds) (fst (periods ops)) outs /\
  tallied name conds (samples (snd (periods ops))) s'.
Proof.
  pose proof (srun_spec E ops name conds [] (sli_new name conds) w (tallied_new name conds)) as H.
  destruct (srun E ops (sli_new name conds) w) as [[s' outs] w']. destruct (periods ops) as [[|[fs ts] ps] last]; cbn [fst snd app] in *.
  - destruct H as [-> H]. auto.
  - destruct H as (out & outs' & -> & Hr & Hrest & Hl). auto.
Qed.

Lemma numeric_length l : (length (numeric l) + length (errors l))%nat = length l.
Proof.
  induction l as [|[|v z] l IH]; [reflexivity| |].
  - change (errors (SErr :: l)) with (SErr :: errors l). change (numeric (SErr :: l)) with (numeric l). cbn [length]. rewrite <- IH. apply Nat.add_succ_r.
  - change (errors (SNum v z :: l)) with (errors l). change (numeric (SNum v z :: l)) with ((v, z) :: numeric l). cbn [length]. rewrite <- IH. reflexivity.
Qed.
Lemma filter_shorter {A} (f : A -> bool) l : (length (List.filter f l) <= length l)%nat.
Proof. induction l as [|x l IH]; cbn; [lia|]. destruct (f x); cbn; lia. Qed.
Lemma passing_le c l : (length (passing c l) + length (errors l) <= length l)%nat.
Proof.
  pose proof (numeric_length l). pose proof (filter_shorter (fun x => cond_holds c (fst x) (snd x)) (numeric l)) as Hf.
  unfold passing. lia.
Qed.

(** ** Rules *)
Definition word_chars : str := B "abcdefghijklmnopqrstuvwxyzABCDEFGHIJKLMNOPQRSTUVWXYZ0123456789_".
Definition head_chars : str := word_chars ++ B ".*?-".
Definition made_of (cs s : str) : Prop := s <> [] /\ Forall (fun c => In c cs) s.
(** HEAD => LABEL IF NAME TAIL, where TAIL does not go on with the name *)
Definition rule_text (line head label cname tl : str) : Prop :=
  line = head ++ B " => " ++ label ++ B " IF " ++ cname ++ tl /\
  made_of head_chars head /\ made_of word_chars label /\ made_of word_chars cname /\
  (forall c t, tl = c :: t -> ~ In c word_chars).
(** parameters: TAIL without its first character, cut at spaces *)
Definition params_of (tl : str) (ps : list str) : Prop :=
  ps <> [] /\ Forall (fun w => ~ In c_space w) ps /\
  ((tl = [] /\ ps = [[]]) \/ exists c t, tl = c :: t /\ t = join [c_space] ps).
Inductive means : str -> list str -> centry -> Prop :=
| m_above1 a x : float_of a = Some x -> means (B "above") [a] (CCond (Above x n0))
| m_above2 a b x y : float_of a = Some x -> float_of b = Some y -> means (B "above") [a; b] (CCond (Above x y))
| m_below1 a x : float_of a = Some x -> means (B "below") [a] (CCond (Below x n0))
| m_below2 a b x y : float_of a = Some x -> float_of b = Some y -> means (B "below") [a; b] (CCond (Below x y))
| m_between a b x y : float_of a = Some x -> float_of b = Some y -> means (B "between") [a; b] (CCond (Between x y))
| m_metric2 a b : means (B "metric") [a; b] CObj
| m_metric3 a b c : means (B "metric") [a; b; c] CObj.
Definition rule (line head label : str) (e : centry) : Prop :=
  exists cname tl ps, rule_text line head label cname tl /\ params_of tl ps /\ means cname ps e.
Definition good (line : str) : Prop := exists head label e, rule line head label e.

Lemma all_chars (P : ascii -> bool) : forallb (fun n => P (ascii_of_nat n)) (seq 0 256) = true -> forall c, P c = true.
Proof.
  intros H c. rewrite forallb_forall in H. rewrite <- (ascii_nat_embedding c). apply H. apply in_seq. pose proof (nat_ascii_bounded c). lia.
Qed.
Lemma is_word_iff c : is_word c = true <-> In c word_chars.
Proof.
  rewrite <- (has_In c word_chars).
  assert (H : forall c, Bool.eqb (is_word c) (has c word_chars) = true) by (apply all_chars; vm_compute; reflexivity).
  specialize (H c). apply eqb_prop in H. rewrite H. reflexivity.
Qed.
Lemma is_head_iff c : is_head c = true <-> In c head_chars.
Proof.
  rewrite <- (has_In c head_chars).
  assert (H : forall c, Bool.eqb (is_head c) (has c head_chars) = true) by (apply all_chars; vm_compute; reflexivity).
  specialize (H c). apply eqb_prop in H. rewrite H. reflexivity.
Qed.
Lemma forallb_made (p : ascii -> bool) cs (Hp : forall c, p c = true <-> In c cs) s :
  forallb p s = true <-> Forall (fun c => In c cs) s.
Proof.
  induction s as [|c s IH]; cbn; [split; auto|]. rewrite andb_true_iff, Forall_cons, Hp, IH. reflexivity.
Qed.
Lemma drop_prefix_iff p s t : drop_prefix p s = Some t <-> s = p ++ t.
Proof.
  revert s. induction p as [|x p IH]; intros s; cbn [drop_prefix app]; [split; congruence|].
  destruct s as [|y s]; [split; discriminate|]. destruct (eqc x y) eqn:E.
  - apply eqc_eq in E. subst y. rewrite IH. split; congruence.
  - apply eqc_neq in E. split; [discriminate|]. congruence.
Qed.
Lemma nonempty_iff s : nonempty s = true <-> s <> [].
Proof. destruct s; cbn; split; congruence. Qed.

Lemma match_rule_iff line head label cname tl :
  match_rule line = Some (head, label, cname, tl) <-> rule_text line head label cname tl.
Proof.
  unfold match_rule, rule_text, made_of. split.
  - destruct (span is_head line) as [h r1] eqn:E1. destruct (nonempty h) eqn:N1; cbn [negb]; [|discriminate].
    destruct (drop_prefix (B " => ") r1) as [r2|] eqn:D1; [|discriminate].
    destruct (span is_word r2) as [l r3] eqn:E2. destruct (nonempty l) eqn:N2; cbn [negb]; [|discriminate].
    destruct (drop_prefix (B " IF ") r3) as [r4|] eqn:D2; [|discriminate].
    destruct (span is_word r4) as [c r] eqn:E3. destruct (nonempty c) eqn:N3; cbn [negb]; [|discriminate].
    intros [= -> -> -> ->]. apply drop_prefix_iff in D1, D2. apply nonempty_iff in N1, N2, N3.
    pose proof (span_spec is_head line) as (S1 & S2 & _). pose proof (span_spec is_word r2) as (T1 & T2 & _).
    pose proof (span_spec is_word r4) as (U1 & U2 & U3).
    rewrite E1 in *. rewrite E2 in *. rewrite E3 in *. cbn [fst snd] in *.
    split; [subst; rewrite <- ?app_assoc; reflexivity|]. split; [split; [exact N1|apply (forallb_made is_head); [exact is_head_iff|exact S2]]|].
    split; [split; [exact N2|apply (forallb_made is_word); [exact is_word_iff|exact T2]]|].
    split; [split; [exact N3|apply (forallb_made is_word); [exact is_word_iff|exact U2]]|].
    intros x t ->. rewrite <- is_word_iff. congruence.
  - intros (-> & [N1 S1] & [N2 S2] & [N3 S3] & Hend).
    apply (forallb_made is_head _ is_head_iff) in S1. apply (forallb_made is_word _ is_word_iff) in S2, S3. apply nonempty_iff in N1, N2, N3.
    rewrite (span_app is_head head (B " => " ++ label ++ B " IF " ++ cname ++ tl) S1 eq_refl). rewrite N1. cbn [negb].
    rewrite (proj2 (drop_prefix_iff _ _ (label ++ B " IF " ++ cname ++ tl)) eq_refl).
    rewrite (span_app is_word label (B " IF " ++ cname ++ tl) S2 eq_refl). rewrite N2. cbn [negb].
    rewrite (proj2 (drop_prefix_iff _ _ (cname ++ tl)) eq_refl).
    rewrite (span_app is_word cname tl S3); [rewrite N3; reflexivity|].
    destruct tl as [|x t]; [exact I|]. destruct (is_word x) eqn:Ex; [|reflexivity]. apply is_word_iff in Ex. exfalso. exact (Hend x t eq_refl Ex).
Qed.
Lemma params_iff tl ps : params_of tl ps <-> ps = split_on c_space (tail tl).
Proof.
  unfold params_of. split.
  - intros (Hne & Hf & [[-> ->]|(c & t & -> & ->)]); [reflexivity|]. cbn [tail]. symmetry. apply split_on_join; assumption.
  - intros ->. split; [apply split_on_nonempty|]. split; [apply split_on_no_sep|]. destruct tl as [|c t]; [left; auto|].
    right. exists c, t. split; [reflexivity|]. cbn [tail]. symmetry. apply join_split_on.
Qed.
Lemma build_cond_iff cname ps e : build_cond cname ps = Ok e <-> means cname ps e.
Proof.
  unfold build_cond. split.
  - destruct (str_eqb cname (B "above")) eqn:E1; [apply str_eqb_eq in E1; subst|
    destruct (str_eqb cname (B "below")) eqn:E2; [apply str_eqb_eq in E2; subst|
    destruct (str_eqb cname (B "between")) eqn:E3; [apply str_eqb_eq in E3; subst|
    destruct (str_eqb cname (B "metric")) eqn:E4; [apply str_eqb_eq in E4; subst|discriminate]]]];
    destruct ps as [|a [|b [|c [|d ps]]]]; try discriminate; unfold floats2, pyfloat; intros H;
    repeat match type of H with context [float_of ?x] => destruct (float_of x) eqn:?; try discriminate H end;
    injection H as <-; econstructor; eassumption.
  - intros H. destruct H; rewrite ?str_eqb_refl; cbn; unfold floats2, pyfloat;
    repeat match goal with H : float_of _ = Some _ |- _ => rewrite H; clear H end; reflexivity.
Qed.
Lemma build_cond_errors cname ps e : build_cond cname ps = Exn e -> e = TypeError \/ e = ValueError.
Proof.
  assert (Hf : forall a e, pyfloat a = Exn e -> e = ValueError) by (unfold pyfloat; intros a e0 H; destruct (float_of a); congruence).
  assert (Hf2 : forall a b f e, floats2 a b f = Exn e -> e = ValueError).
  { unfold floats2. intros a b f e0 H. destruct (pyfloat a) eqn:E1; [destruct (pyfloat b) eqn:E2|]; try discriminate; injection H as <-; eauto. }
  unfold build_cond. intros H.
  destruct (str_eqb cname (B "above")); [|destruct (str_eqb cname (B "below")); [|destruct (str_eqb cname (B "between")); [|destruct (str_eqb cname (B "metric")); [|left; congruence]]]];
    destruct ps as [|a [|b [|c [|d ps]]]]; try (left; congruence); try discriminate H; right; eauto;
    destruct (pyfloat a) eqn:E; try discriminate; injection H as <-; eauto.
Qed.

Definition put (cfg : sconfig) (head label : str) (e : centry) : sconfig :=
  <[head := <[label := e]> (match cfg !! head with Some m => m | None => ∅ end)]> cfg.
Lemma configure_rule_good cfg line head label e : rule line head label e ->
  configure_rule cfg line = (put cfg head label e, Ok tt).
Proof.
  intros (cname & tl & ps & Ht & Hp & Hm). apply match_rule_iff in Ht. apply params_iff in Hp. apply build_cond_iff in Hm. subst ps.
  unfold configure_rule, put. rewrite Ht, Hm. rewrite insert_insert. reflexivity.
Qed.
Lemma configure_rule_bad cfg line : ~ good line ->
  exists cfg' e, configure_rule cfg line = (cfg', Exn e) /\ (e = TypeError \/ e = ValueError) /\
    ((forall head label cname tl, ~ rule_text line head label cname tl) -> e = TypeError /\ cfg' = cfg) /\
    (forall head label e0, (match cfg' !! head with Some m => m !! label | None => None end) = Some e0 <->
                           (match cfg !! head with Some m => m !! label | None => None end) = Some e0).
Proof.
  intros Hb. unfold configure_rule. destruct (match_rule line) as [[[[head label] cname] tl]|] eqn:Em.
  - apply match_rule_iff in Em. destruct (build_cond cname (split_on c_space (tail tl))) as [e|e] eqn:Eb.
    + exfalso. apply Hb. exists head, label, e, cname, tl, (split_on c_space (tail tl)). split; [exact Em|]. split; [apply params_iff; reflexivity|].
      apply build_cond_iff. exact Eb.
    + eexists _, e. split; [reflexivity|]. split; [eapply build_cond_errors; exact Eb|]. split; [intros H; exfalso; eapply H; exact Em|].
      intros h l e0. destruct (decide (h = head)) as [->|Hne].
      * rewrite lookup_insert. destruct (cfg !! head); [reflexivity|]. rewrite lookup_empty. reflexivity.
      * rewrite lookup_insert_ne by auto. reflexivity.
  - exists cfg, TypeError. split; [reflexivity|]. split; [auto|]. split; [auto|]. reflexivity.
Qed.

(** the entry for a head and label after the rules: that of the last rule for them *)
Inductive last_rule : list str -> str -> str -> centry -> Prop :=
| last_here line rest head label e : rule line head label e ->
    (forall l e', In l rest -> ~ rule l head label e') -> last_rule (line :: rest) head label e
| last_later line rest head label e : last_rule rest head label e -> last_rule (line :: rest) head label e.

Lemma rule_fun line h l e h' l' e' : rule line h l e -> rule line h' l' e' -> h = h' /\ l = l' /\ e = e'.
Proof.
  intros (c & tl & ps & Ht & Hp & Hm) (c' & tl' & ps' & Ht' & Hp' & Hm'). apply match_rule_iff in Ht, Ht'. rewrite Ht in Ht'.
  injection Ht' as <- <- <- <-. apply params_iff in Hp, Hp'. subst ps ps'. apply build_cond_iff in Hm, Hm'. rewrite Hm in Hm'.
  injection Hm' as <-. auto.
Qed.
Definition entry (cfg : sconfig) (head label : str) : option centry :=
  match cfg !! head with Some m => m !! label | None => None end.
Lemma entry_put cfg h l e h' l' : entry (put cfg h l e) h' l' = if decide (h' = h /\ l' = l) then Some e else entry cfg h' l'.
Proof.
  unfold entry, put. destruct (decide (h' = h)) as [->|Hne].
  - rewrite lookup_insert. destruct (decide (l' = l)) as [->|Hl].
    + rewrite lookup_insert. rewrite decide_True by auto. reflexivity.
    + rewrite lookup_insert_ne by auto. rewrite decide_False by tauto. destruct (cfg !! h); [reflexivity|apply lookup_empty].
  - rewrite lookup_insert_ne by auto. rewrite decide_False by tauto. reflexivity.
Qed.

Lemma rule_dec line h l : (exists e, rule line h l e) \/ ~ (exists e, rule line h l e).
Proof.
  destruct (match_rule line) as [[[[head label] cname] tl]|] eqn:Em.
  - destruct (build_cond cname (split_on c_space (tail tl))) as [e|e] eqn:Eb.
    + assert (Hr : rule line head label e).
      { exists cname, tl, (split_on c_space (tail tl)). split; [apply match_rule_iff; exact Em|]. split; [apply params_iff; reflexivity|].
        apply build_cond_iff. exact Eb. }
      destruct (decide (h = head /\ l = label)) as [[-> ->]|Hd]; [left; eauto|]. right. intros [e' He'].
      destruct (rule_fun _ _ _ _ _ _ _ Hr He') as (-> & -> & _). auto.
    + right. intros (e' & c & t & ps & Ht & Hp & Hm). apply match_rule_iff in Ht. rewrite Em in Ht. injection Ht as -> -> -> ->.
      apply params_iff in Hp. subst ps. apply build_cond_iff in Hm. congruence.
  - right. intros (e' & c & t & ps & Ht & _). apply match_rule_iff in Ht. congruence.
Qed.
Lemma last_rule_exists lines h l : (exists ln e, In ln lines /\ rule ln h l e) -> exists e, last_rule lines h l e.
Proof.
  induction lines as [|x lines IH]; intros (ln & e & Hi & Hr); [destruct Hi|].
  assert (Hdec : (exists ln e, In ln lines /\ rule ln h l e) \/ ~ (exists ln e, In ln lines /\ rule ln h l e)).
  { clear. induction lines as [|y lines IH]; [right; intros (? & ? & [] & _)|]. destruct (rule_dec y h l) as [[e He]|Hn]; [left; exists y, e; cbn; auto|].
    destruct IH as [(ln & e & Hi & Hr)|Hd]; [left; exists ln, e; cbn; auto|]. right. intros (ln & e & [->|Hi] & Hr); eauto. }
  destruct Hdec as [Hd|Hd].
  - destruct (IH Hd) as [e' He']. exists e'. constructor 2. exact He'.
  - destruct Hi as [->|Hi]; [|exfalso; apply Hd; eauto]. exists e. constructor; [exact Hr|]. intros m e' Hm Hre. apply Hd. eauto.
Qed.
Lemma good_dec line : good line \/ ~ good line.
Proof.
  destruct (match_rule line) as [[[[head label] cname] tl]|] eqn:Em.
  - destruct (rule_dec line head label) as [[e He]|Hn]; [left; exists head, label, e; exact He|]. right.
    intros (h & l & e & Hr). assert (HH := Hr). destruct HH as (c & t & ps & Ht & _). apply match_rule_iff in Ht. rewrite Em in Ht. injection Ht as -> -> _ _. eauto.
  - right. intros (h & l & e & c & t & ps & Ht & _). apply match_rule_iff in Ht. congruence.
Qed.

Lemma configure_rules_good lines : Forall good lines -> forall cfg,
  exists cfg', configure_rules cfg lines = (cfg', Ok tt) /\
    forall h l, (forall e, last_rule lines h l e -> entry cfg' h l = Some e) /\
                ((forall e, ~ last_rule lines h l e) -> entry cfg' h l = entry cfg h l) .
Proof.
  induction 1 as [|line lines (h0 & l0 & e0 & Hr) _ IH]; intros cfg; cbn [configure_rules].
  - eexists. split; [reflexivity|]. intros h l. split; [intros e H; inversion H|reflexivity].
  - rewrite (configure_rule_good _ _ _ _ _ Hr). destruct (IH (put cfg h0 l0 e0)) as (cfg' & Hc & Hall). exists cfg'. split; [exact Hc|].
    intros h l. destruct (Hall h l) as [H1 H2]. split.
    + intros e He. inversion He as [? ? ? ? ? Hx Hno|? ? ? ? ? Hx]; subst; [|auto].
      destruct (rule_fun _ _ _ _ _ _ _ Hr Hx) as (-> & -> & ->). rewrite H2.
      * rewrite entry_put, decide_True by auto. reflexivity.
      * intros e' He'. assert (Hin : exists ln, In ln lines /\ rule ln h l e').
        { clear -He'. induction He' as [ln r h l e' Hr _|ln r h l e' _ (x & Hx & Hr)]; [exists ln; cbn; auto|exists x; cbn; auto]. }
        destruct Hin as (ln & Hin & Hrl). eapply Hno; eauto.
    + intros Hno. rewrite H2; [|intros e He; apply (Hno e); constructor 2; exact He].
      rewrite entry_put. destruct (decide (h = h0 /\ l = l0)) as [[-> ->]|Hd]; [|reflexivity].
      exfalso. apply (Hno e0). constructor; [exact Hr|]. intros ln e' Hin Hrl.
      assert (Hex : exists e'', last_rule lines h0 l0 e'') by (apply last_rule_exists; eauto).
      destruct Hex as [e'' He'']. apply (Hno e''). constructor 2. exact He''.
Qed.

(** the configured text: first the lines before the first bad one are installed *)
Lemma configure_rules_bad before line after cfg : Forall good before -> ~ good line ->
  exists cfg1 cfg2 e, configure_rules cfg before = (cfg1, Ok tt) /\
    configure_rules cfg (before ++ line :: after) = (cfg2, Exn e) /\ (e = TypeError \/ e = ValueError) /\
    ((forall head label cname tl, ~ rule_text line head label cname tl) -> e = TypeError) /\
    (forall h l, entry cfg2 h l = entry cfg1 h l).
Proof.
  intros Hg Hb. revert cfg. induction Hg as [|x before (h0 & l0 & e0 & Hr) _ IH]; intros cfg; cbn [configure_rules app].
  - destruct (configure_rule_bad cfg line Hb) as (cfg' & e & -> & He & Ht & Hs). exists cfg, cfg', e. repeat split; auto.
    + intros H. apply Ht. exact H.
    + intros h l. unfold entry. specialize (Hs h l). destruct (match cfg' !! h with Some m => m !! l | None => None end) as [x|].
      * symmetry. apply Hs. reflexivity.
      * destruct (match cfg !! h with Some m => m !! l | None => None end) as [y|]; [|reflexivity]. apply Hs. reflexivity.
  - rewrite (configure_rule_good _ _ _ _ _ Hr). apply IH.
Qed.
Lemma first_bad lines : Forall good lines \/ exists before line after, lines = before ++ line :: after /\ Forall good before /\ ~ good line.
Proof.
  induction lines as [|x lines IH]; [left; constructor|]. destruct (good_dec x) as [Hx|Hx]; [|right; exists [], x, lines; auto].
  destruct IH as [H|(b & l & a & -> & Hb & Hl)]; [left; constructor; assumption|]. right. exists (x :: b), l, a. auto.
Qed.
Lemma configure_ok_iff cfg text :
  snd (sli_configure cfg (Some text)) = Ok tt <-> Forall good (split_on c_nl (strip text)).
Proof.
  unfold sli_configure. destruct (first_bad (split_on c_nl (strip text))) as [H|(b & l & a & Hs & Hb & Hl)].
  - split; [auto|]. intros _. destruct (configure_rules_good _ H cfg) as (c & -> & _). reflexivity.
  - rewrite Hs. destruct (configure_rules_bad b l a cfg Hb Hl) as (c1 & c2 & e & _ & -> & _). cbn. split; [discriminate|].
    intros Hf. apply Forall_app in Hf as [_ Hf]. inversion Hf; subst. contradiction.
Qed.

(** ** The conditions of a metric *)
Definition heads_ok (cfg : sconfig) : Prop := forall h, is_Some (cfg !! h) -> ~ In "["%char h.
Lemma put_heads cfg h l e : heads_ok cfg -> ~ In "["%char h -> heads_ok (put cfg h l e).
Proof. intros Hc Hh k. unfold put. rewrite lookup_insert_is_Some. intros [<-|[_ H]]; auto. Qed.
Lemma rule_head line h l e : rule line h l e -> ~ In "["%char h.
Proof.
  intros (c & t & ps & (_ & [_ Hf] & _) & _) Hin. rewrite Forall_forall in Hf. specialize (Hf _ (proj2 (elem_of_list_In _ _) Hin)).
  apply has_In in Hf. vm_compute in Hf. discriminate.
Qed.
Lemma configure_heads lines : forall cfg, heads_ok cfg -> heads_ok (fst (configure_rules cfg lines)).
Proof.
  induction lines as [|x lines IH]; intros cfg Hc; cbn [configure_rules]; [exact Hc|].
  unfold configure_rule. destruct (match_rule x) as [[[[head label] cname] tl]|] eqn:Em; [|exact Hc].
  assert (Hh : ~ In "["%char head).
  { apply match_rule_iff in Em. destruct Em as (_ & [_ Hf] & _). intros Hin. rewrite Forall_forall in Hf. specialize (Hf _ (proj2 (elem_of_list_In _ _) Hin)).
    apply has_In in Hf. vm_compute in Hf. discriminate. }
  assert (Hi : forall m, heads_ok (<[head := m]> cfg)) by (intros m k; rewrite lookup_insert_is_Some; intros [<-|[_ H]]; auto).
  destruct (build_cond cname (split_on c_space (tail tl))) as [e|e]; cbn [fst]; [|apply Hi].
  apply IH. rewrite insert_insert. apply Hi.
Qed.

Lemma sli_conditions_spec path config : Forall (fun hc => ~ In "["%char (fst hc)) config ->
  forall acc, exists cs, sli_conditions path config acc = Ok cs /\
    forall k, (forall c, cs !! k = Some c -> acc !! k = Some c \/ exists h m, In (h, m) config /\ describes h path /\ m !! k = Some c) /\
              ((acc !! k <> None \/ exists h m, In (h, m) config /\ describes h path /\ m !! k <> None) -> cs !! k <> None).
Proof.
  induction 1 as [|[h m] config Hh _ IH]; intros acc; cbn [sli_conditions].
  - exists acc. split; [reflexivity|]. intros k. split; [auto|]. intros [H|(h & m & [] & _)]. exact H.
  - cbn [fst] in Hh. destruct (fnmatch_spec path h) as [Hf _]. destruct (Hf (plain_proper h Hh)) as (b & -> & Hb).
    destruct b.
    + destruct (IH (m ∪ acc)) as (cs & -> & Hk). exists cs. split; [reflexivity|]. intros k. destruct (Hk k) as [H1 H2]. split.
      * intros c Hc. destruct (H1 c Hc) as [Hu|(h' & m' & Hin & Hd & Hm)].
        -- rewrite lookup_union_Some_raw in Hu. destruct Hu as [Hu|[_ Hu]]; [|auto]. right. exists h, m. split; [left; reflexivity|]. split; [apply Hb; reflexivity|exact Hu].
        -- right. exists h', m'. split; [right; exact Hin|auto].
      * intros Hor. apply H2. destruct Hor as [Ha|(h' & m' & [[= <- <-]|Hin] & Hd & Hm)].
        -- left. rewrite lookup_union. destruct (m !! k); [destruct (acc !! k); discriminate|]. destruct (acc !! k); [discriminate|contradiction].
        -- left. rewrite lookup_union. destruct (m !! k); [destruct (acc !! k); discriminate|contradiction].
        -- right. exists h', m'. auto.
    + destruct (IH acc) as (cs & -> & Hk). exists cs. split; [reflexivity|]. intros k. destruct (Hk k) as [H1 H2]. split.
      * intros c Hc. destruct (H1 c Hc) as [Ha|(h' & m' & Hin & Hd & Hm)]; [auto|]. right. exists h', m'. split; [right; exact Hin|auto].
      * intros Hor. apply H2. destruct Hor as [Ha|(h' & m' & [[= <- <-]|Hin] & Hd & Hm)]; [auto| |right; exists h', m'; auto].
        exfalso. apply Hb in Hd. discriminate.
Qed.

(** the rules of the text that apply to [path] under [label]: the last one of
    each head describing the path *)
Definition applies (lines : list str) (path label : str) (c : cond) : Prop :=
  exists head, describes head path /\ last_rule lines head label (CCond c).
Definition only_conditions (lines : list str) : Prop := forall l h lb, In l lines -> ~ rule l h lb CObj.

Lemma last_rule_fun lines h l e e' : last_rule lines h l e -> last_rule lines h l e' -> e = e'.
Proof.
  induction 1 as [line r h l e Hr Hno|line r h l e Hl IH]; intros H'; inversion H' as [? ? ? ? ? Hr' Hno'|? ? ? ? ? Hl']; subst.
  - destruct (rule_fun _ _ _ _ _ _ _ Hr Hr') as (_ & _ & ->). reflexivity.
  - exfalso. assert (Hin : exists ln, In ln r /\ rule ln h l e').
    { clear -Hl'. induction Hl' as [ln r h l e' Hr _|ln r h l e' _ (x & Hx & Hr)]; [exists ln; cbn; auto|exists x; cbn; auto]. }
    destruct Hin as (ln & Hin & Hrl). eapply Hno; eauto.
  - exfalso. assert (Hin : exists ln, In ln r /\ rule ln h l e).
    { clear -Hl. induction Hl as [ln r h l e' Hr _|ln r h l e' _ (x & Hx & Hr)]; [exists ln; cbn; auto|exists x; cbn; auto]. }
    destruct Hin as (ln & Hin & Hrl). eapply Hno'; eauto.
  - auto.
Qed.
Lemma last_rule_in lines h l e : last_rule lines h l e -> exists ln, In ln lines /\ rule ln h l e.
Proof. induction 1 as [ln r h l e' Hr _|ln r h l e' _ (x & Hx & Hr)]; [exists ln; cbn; auto|exists x; cbn; auto]. Qed.

Lemma configured_metric text : Forall good (split_on c_nl (strip text)) ->
  exists cfg, sli_configure ∅ (Some text) = (cfg, Ok tt) /\
    forall E ks prefix name w, ks ≡ₚ (map_to_list cfg).*1 ->
    exists cs, build_metric E (sli_factory cfg ks) prefix name w = (Ok (PSli (sli_new (sli_path prefix name) cs)), w) /\
      forall label,
        (forall c, cs !! label = Some c -> applies (split_on c_nl (strip text)) (sli_path prefix name) label c) /\
        ((exists c, applies (split_on c_nl (strip text)) (sli_path prefix name) label c) -> cs !! label <> None).
Proof.
  set (lines := split_on c_nl (strip text)). intros Hg. destruct (configure_rules_good lines Hg ∅) as (cfg & Hc & Hent).
  pose proof (configure_heads lines ∅) as Hh. rewrite Hc in Hh. cbn [fst] in Hh.
  specialize (Hh ltac:(intros h [x Hx]; rewrite lookup_empty in Hx; discriminate)).
  exists cfg. split; [exact Hc|]. intros E ks prefix name w Hks. unfold build_metric, sli_factory.
  set (config := flat_map _ ks). set (path := sli_path prefix name).
  assert (Hin : forall h m, In (h, m) config <-> exists m0, cfg !! h = Some m0 /\ m = omap only_cond m0).
  { intros h m. unfold config. rewrite in_flat_map. split.
    - intros (k & Hk & Hx). destruct (cfg !! k) as [m0|] eqn:Ek; [|destruct Hx]. destruct Hx as [[= <- <-]|[]]. eauto.
    - intros (m0 & Hm0 & ->). exists h. split.
      + apply elem_of_list_In. rewrite Hks. apply elem_of_list_fmap. exists (h, m0). split; [reflexivity|]. apply elem_of_map_to_list. exact Hm0.
      + rewrite Hm0. left. reflexivity. }
  assert (Hf : Forall (fun hc : str * gmap str cond => ~ In "["%char (fst hc)) config).
  { apply Forall_forall. intros [h m] Hx. apply elem_of_list_In in Hx. apply Hin in Hx as (m0 & Hm0 & _). apply Hh. eauto. }
  destruct (sli_conditions_spec path config Hf ∅) as (cs & -> & Hk). exists cs. split; [reflexivity|].
  assert (Hlook : forall h l c, (exists m, In (h, m) config /\ m !! l = Some c) <-> last_rule lines h l (CCond c)).
  { intros h l c. destruct (Hent h l) as [H1 H2]. split.
    - intros (m & Hm & Hl). apply Hin in Hm as (m0 & Hm0 & ->). rewrite lookup_omap in Hl. destruct (m0 !! l) as [[c'|]|] eqn:El; try discriminate. cbn in Hl. injection Hl as ->.
      assert (Hdec : (exists ln e, In ln lines /\ rule ln h l e) \/ ~ (exists ln e, In ln lines /\ rule ln h l e)).
      { clear. induction lines as [|y lines IH]; [right; intros (? & ? & [] & _)|]. destruct (rule_dec y h l) as [[e He]|Hn]; [left; exists y, e; cbn; auto|].
        destruct IH as [(ln & e & Hi & Hr)|Hd]; [left; exists ln, e; cbn; auto|]. right. intros (ln & e & [->|Hi] & Hr); eauto. }
      destruct Hdec as [Hd|Hd].
      + destruct (last_rule_exists _ _ _ Hd) as [e He]. rewrite (H1 e He) in *. assert (Some e = Some (CCond c)) by (rewrite <- (H1 e He); unfold entry; rewrite Hm0; exact El). congruence.
      + exfalso. assert (entry cfg h l = None) as Hn.
        { rewrite H2; [unfold entry; rewrite lookup_empty; reflexivity|]. intros e He. apply Hd. destruct (last_rule_in _ _ _ _ He) as (ln & ? & ?). eauto. }
        unfold entry in Hn. rewrite Hm0 in Hn. congruence.
    - intros Hl. specialize (H1 _ Hl). unfold entry in H1. destruct (cfg !! h) as [m0|] eqn:Em; [|discriminate]. exists (omap only_cond m0).
      split; [apply Hin; eauto|]. rewrite lookup_omap, H1. reflexivity. }
  intros label. destruct (Hk label) as [H1 H2]. split.
  - intros c Hc'. destruct (H1 c Hc') as [H|(h & m & Hm & Hd & Hl)]; [rewrite lookup_empty in H; discriminate|]. exists h. split; [exact Hd|].
    apply Hlook. eauto.
  - intros (c & h & Hd & Hl). apply H2. right. apply Hlook in Hl as (m & Hm & Hl). exists h, m. split; [exact Hm|]. split; [exact Hd|congruence].
Qed.
End slifacts.

(** ** The conditions over the exact numbers *)
Lemma below_exact sq v s x z : cond_holds (NN := XQ sq) (Below (NN := XQ sq) (Fin v) (Fin s)) (Fin x) (Fin z) = true <-> (x < v + s * z)%Qc.
Proof. cbn. apply Qc_ltb_lt. Qed.
Lemma above_exact sq v s x z : cond_holds (NN := XQ sq) (Above (NN := XQ sq) (Fin v) (Fin s)) (Fin x) (Fin z) = true <-> (v + s * z < x)%Qc.
Proof. cbn. apply Qc_ltb_lt. Qed.
Lemma between_exact sq lo hi x z : cond_holds (NN := XQ sq) (Between (NN := XQ sq) (Fin lo) (Fin hi)) (Fin x) (Fin z) = true <-> (lo < x /\ x < hi)%Qc.
Proof. cbn. rewrite andb_true_iff, !Qc_ltb_lt. reflexivity. Qed.
