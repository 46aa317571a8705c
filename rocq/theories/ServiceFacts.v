(** Facts about the options and the service. *)
From Verif Require Import Base Num StrFacts Env Gen Metrics Processor Sched CSched Process LineSpec RouterSpec ProcessSpec
  RouterFacts ProcessFacts Service ServiceSpec.
From Coq Require Import Sorting.Sorted.

(** ** the table *)
Lemma table_documented x : In x option_table <-> In x documented.
Proof.
  split; intros H; repeat (destruct H as [<-|H]; [clear; unfold option_table, documented; cbn [In]; tauto|]); destruct H.
Qed.
Lemma table_names : NoDup (map (fun '(n, _, _, _) => n) option_table).
Proof. apply (bool_decide_eq_true_1 _). vm_compute. reflexivity. Qed.
Lemma table_letters : NoDup (map (fun '(_, c, _, _) => c) option_table).
Proof. apply (bool_decide_eq_true_1 _). vm_compute. reflexivity. Qed.
Lemma NoDup_key {A K} (key : A -> K) (l : list A) a b : NoDup (map key l) -> In a l -> In b l -> key a = key b -> a = b.
Proof.
  induction l as [|x l IH]; cbn; [intros _ []|]. intros Hn Ha Hb E. apply NoDup_cons in Hn as [Hx Hn].
  assert (Hin : forall y, In y l -> key y ∈ map key l) by (intros y Hy; apply elem_of_list_In, in_map, Hy).
  destruct Ha as [->|Ha], Hb as [->|Hb]; auto.
  - rewrite E in Hx. destruct (Hx (Hin b Hb)).
  - rewrite <- E in Hx. destruct (Hx (Hin a Ha)).
Qed.
Lemma find_key {A} (p : A -> bool) l a : (forall b, In b l -> p b = true -> b = a) -> In a l -> p a = true -> List.find p l = Some a.
Proof.
  intros Hu Ha Hp. destruct (List.find p l) as [b|] eqn:E.
  - apply List.find_some in E as [H1 H2]. f_equal. auto.
  - pose proof (List.find_none p l E a Ha). congruence.
Qed.
Lemma kind_in n c d k : In (n, c, d, k) option_table -> kind_of n = Some k.
Proof.
  intros H. unfold kind_of. rewrite (find_key _ _ (n, c, d, k)); [reflexivity| |exact H|apply str_eqb_refl].
  intros [[[n' c'] d'] k'] H' E. apply str_eqb_eq in E. subst n'.
  exact (NoDup_key _ _ _ _ table_names H' H eq_refl).
Qed.
Lemma kind_some n k : kind_of n = Some k -> exists c d, In (n, c, d, k) option_table.
Proof.
  unfold kind_of. destruct (List.find _ _) as [[[[n' c] d] k']|] eqn:E; [|discriminate]. intros H. cbn in H. inversion H; subst.
  apply List.find_some in E as [H1 H2]. apply str_eqb_eq in H2. subst. eauto.
Qed.
Lemma flag_name_iff f n : flag_name f = Some n <-> names f n.
Proof.
  split.
  - destruct f as [m|c]; cbn [flag_name].
    + destruct (kind_of m) as [k|] eqn:E; [|discriminate]. intros H; inversion H; subst. apply kind_some in E as (c & d & E).
      exists c, d, k. rewrite <- table_documented. auto.
    + unfold of_letter. destruct (List.find _ _) as [[[[n' c'] d] k]|] eqn:E; [|discriminate]. intros H; cbn in H; inversion H; subst.
      apply List.find_some in E as [H1 H2]. exists c', d, k. split; [apply table_documented; exact H1|]. right. f_equal. symmetry. apply eqc_eq. exact H2.
  - intros (c & d & k & Hin & [->| ->]); apply table_documented in Hin; cbn [flag_name].
    + rewrite (kind_in _ _ _ _ Hin). reflexivity.
    + unfold of_letter. rewrite (find_key _ _ (n, c, d, k)); [reflexivity| |exact Hin|apply eqc_eq; reflexivity].
      intros [[[n' c'] d'] k'] H' E. apply eqc_eq in E. subst c'.
      exact (NoDup_key (fun '(_, c, _, _) => c) _ _ _ table_letters H' Hin eq_refl).
Qed.
Lemma table_long n c d k : In (n, c, d, k) option_table -> (2 <= length n)%nat.
Proof.
  intros H. assert (Hf : forallb (fun '(n, _, _, _) => (2 <=? length n)%nat) option_table = true) by (vm_compute; reflexivity).
  rewrite forallb_forall in Hf. specialize (Hf _ H). cbv beta iota in Hf. apply Nat.leb_le in Hf. exact Hf.
Qed.
Lemma table_plugin n c d k : In (n, c, d, k) option_table -> starts_with (B "plugin_") n = false.
Proof.
  intros H. assert (Hf : forallb (fun '(n, _, _, _) => negb (starts_with (B "plugin_") n)) option_table = true) by (vm_compute; reflexivity).
  rewrite forallb_forall in Hf. specialize (Hf _ H). cbn in Hf. destruct (starts_with _ n); [discriminate|reflexivity].
Qed.
Lemma table_default n c d k : In (n, c, d, k) option_table -> options_init !! n = Some (settled k d []).
Proof.
  intros H. assert (Hf : forallb (fun '(n, _, d, k) => match options_init !! n with
      | Some x => match x, settled k d [] with ONone, ONone => true | OS a, OS b => str_eqb a b | OI a, OI b => a =? b | OL [], OL [] => true | _, _ => false end
      | None => false end) option_table = true) by (vm_compute; reflexivity).
  rewrite forallb_forall in Hf. specialize (Hf _ H). cbv beta iota in Hf. destruct (options_init !! n) as [x|]; [|discriminate]. f_equal.
  destruct x as [|a|a|[|]|], (settled k d []) as [|b|b|[|]|]; try discriminate; try reflexivity.
  - apply str_eqb_eq in Hf. congruence.
  - apply Z.eqb_eq in Hf. congruence.
Qed.

(** ** values given one after the other *)
Definition vals (n : str) (tr : list (str * str)) : list str := map snd (filter (fun e => fst e = n) tr).
Lemma vals_app n t1 t2 : vals n (t1 ++ t2) = vals n t1 ++ vals n t2.
Proof. unfold vals. rewrite filter_app, map_app. reflexivity. Qed.
Lemma vals_one n v : vals n [(n, v)] = [v].
Proof. unfold vals. rewrite filter_cons_True by reflexivity. reflexivity. Qed.
Lemma vals_other n m v : m <> n -> vals n [(m, v)] = [].
Proof. intros H. unfold vals. rewrite filter_cons_False by (cbn; congruence). reflexivity. Qed.
Definition upto (tr : list (str * str)) (o : options) : Prop :=
  forall n c d k, In (n, c, d, k) option_table ->
    exists xs, Forall2 (reads_as k) (vals n tr) xs /\ o !! n = Some (settled k d xs).
Lemma upto_init : upto [] options_init.
Proof. intros n c d k H. exists []. split; [constructor|]. eapply table_default; exact H. Qed.
Lemma settled_snoc k d xs x : settled k d (xs ++ [x]) = match k with KHost | KPort | KName => OL (xs ++ [x]) | _ => x end.
Proof. destruct k; cbn [settled]; rewrite ?last_snoc; reflexivity. Qed.
Lemma set_upto bad tr n v o o' : upto tr o -> set_option bad n v o = Ok o' -> upto (tr ++ [(n, v)]) o'.
Proof.
  intros Hu H. destruct (kind_of n) as [k|] eqn:Hk.
  2:{ unfold set_option in H. rewrite Hk in H. inversion H; subst. intros m c d k Hm.
      rewrite vals_app, vals_other, app_nil_r by (intros ->; rewrite (kind_in _ _ _ _ Hm) in Hk; discriminate). exact (Hu m c d k Hm). }
  destruct (kind_some n k Hk) as (c & d & Hin). destruct (Hu n c d k Hin) as (xs & Hxs & Ho).
  assert (Hkey : exists x, reads_as k v x /\ o' = <[n := settled k d (xs ++ [x])]> o).
  { unfold set_option in H. rewrite Hk in H. rewrite ?settled_snoc. destruct k; cbn [settled] in Ho.
    - inversion H; subst. eexists. split; [constructor|]. rewrite settled_snoc. reflexivity.
    - destruct (parse_int v) as [z|] eqn:Ez; [|discriminate]. inversion H; subst. exists (OI z).
      split; [constructor; apply parse_int_iff; exact Ez|]. rewrite settled_snoc. reflexivity.
    - unfold append_opt in H. rewrite Ho in H. inversion H; subst. eexists. split; [constructor|reflexivity].
    - unfold port_coerce in H. destruct (to_int v) as [z|e] eqn:Ez; cbn [rbind] in H; [|discriminate].
      destruct ((0 <=? z) && (z <=? 65535)) eqn:Er; cbn [rbind] in H; [|discriminate]. unfold append_opt in H. rewrite Ho in H. inversion H; subst.
      exists (OI z). split; [|reflexivity]. constructor; [apply to_int_iff; exact Ez|lia].
    - unfold append_opt in H. rewrite Ho in H. inversion H; subst. eexists. split; [constructor|reflexivity]. }
  destruct Hkey as (x & Hx & ->). intros m c' d' k' Hm. destruct (decide (n = m)) as [->|Hne].
  - assert (E : (m, c', d', k') = (m, c, d, k)) by exact (NoDup_key _ _ _ _ table_names Hm Hin eq_refl). inversion E; subst.
    exists (xs ++ [x]). rewrite vals_app, vals_one, lookup_insert. split; [|reflexivity].
    apply Forall2_app; [exact Hxs|]. constructor; [exact Hx|constructor].
  - rewrite vals_app, vals_other, app_nil_r, lookup_insert_ne by congruence. exact (Hu m c' d' k' Hm).
Qed.
Definition fine (e : str * str) : Prop :=
  forall c d k, In (fst e, c, d, k) option_table -> exists x, reads_as k (snd e) x.
Lemma set_accepts bad n v o : (exists o', set_option bad n v o = Ok o') <-> fine (n, v).
Proof.
  unfold fine, set_option. cbn [fst snd]. destruct (kind_of n) as [k|] eqn:Hk.
  2:{ split; [|eauto]. intros _ c d k Hm. rewrite (kind_in _ _ _ _ Hm) in Hk. discriminate. }
  destruct (kind_some n k Hk) as (c & d & Hin). split.
  - intros (o' & H) c' d' k' Hm. rewrite (kind_in _ _ _ _ Hm) in Hk. inversion Hk; subst k'.
    destruct k; try solve [eexists; constructor].
    + destruct (parse_int v) as [z|] eqn:Ez; [|discriminate]. exists (OI z). constructor. apply parse_int_iff; exact Ez.
    + unfold port_coerce in H. destruct (to_int v) as [z|e] eqn:Ez; cbn [rbind] in H; [|discriminate].
      destruct ((0 <=? z) && (z <=? 65535)) eqn:Er; cbn [rbind] in H; [|discriminate].
      exists (OI z). constructor; [apply to_int_iff; exact Ez|lia].
  - intros H. destruct (H c d k Hin) as (x & Hx). inversion Hx; subst; eauto.
    + rewrite (proj2 (parse_int_iff v z)) by assumption. eauto.
    + unfold port_coerce. rewrite (proj2 (to_int_iff v z)) by assumption. cbn [rbind].
      destruct ((0 <=? z) && (z <=? 65535)) eqn:Er; [cbn; eauto|]. lia.
Qed.

(** a loop that sets options *)
Lemma rfold_upto {A} (f : options -> A -> res options) (tr_of : A -> list (str * str)) (l : list A) :
  (forall tr a o o', upto tr o -> f o a = Ok o' -> upto (tr ++ tr_of a) o') ->
  forall tr o o', upto tr o -> rfold f l o = Ok o' -> upto (tr ++ concat (map tr_of l)) o'.
Proof.
  intros Hf. induction l as [|a l IH]; intros tr o o' Hu H; cbn in H |- *.
  - inversion H; subst. rewrite app_nil_r. exact Hu.
  - destruct (f o a) as [o1|e] eqn:E; cbn in H; [|discriminate].
    rewrite app_assoc. eapply IH; [eapply Hf; eauto|exact H].
Qed.
Lemma rfold_accepts {A} (f : options -> A -> res options) (good : A -> Prop) (l : list A) :
  (forall a o, (exists o', f o a = Ok o') <-> good a) ->
  forall o, (exists o', rfold f l o = Ok o') <-> Forall good l.
Proof.
  intros Hf. induction l as [|a l IH]; intros o; cbn.
  - split; [constructor|eauto].
  - rewrite Forall_cons, <- (Hf a o). split.
    + intros (o' & H). destruct (f o a) as [o1|e] eqn:E; cbn in H; [|discriminate]. split; [eauto|]. apply (IH o1). eauto.
    + intros [(o1 & E) Hl]. rewrite E. cbn. apply IH. exact Hl.
Qed.
Definition counted (ov : list str) (items : list (str * str)) : list (str * str) :=
  List.filter (fun e => negb (existsb (str_eqb (fst e)) ov)) items.
Lemma coerce_upto ov tr n v o o' : upto tr o -> coerce_option ov n v o = Ok o' -> upto (tr ++ counted ov [(n, v)]) o'.
Proof.
  unfold coerce_option, counted. cbn [List.filter fst]. intros Hu H. destruct (existsb (str_eqb n) ov); cbn [negb].
  - inversion H; subst. rewrite app_nil_r. exact Hu.
  - eapply set_upto; eauto.
Qed.
Lemma counted_concat ov items : concat (map (fun e => counted ov [e]) items) = counted ov items.
Proof.
  induction items as [|e items IH]; [reflexivity|]. cbn [map concat]. rewrite IH. unfold counted. cbn [List.filter].
  destruct (negb (existsb (str_eqb (fst e)) ov)); reflexivity.
Qed.
Lemma items_upto ov tr items o o' : upto tr o -> coerce_items ov items o = Ok o' -> upto (tr ++ counted ov items) o'.
Proof.
  intros Hu H. rewrite <- counted_concat. eapply (rfold_upto _ (fun e => counted ov [e])); [|exact Hu|exact H].
  intros tr' [n v] o1 o2 H1 H2. eapply coerce_upto; eauto.
Qed.
Lemma coerce_accepts ov n v o : (exists o', coerce_option ov n v o = Ok o') <-> Forall fine (counted ov [(n, v)]).
Proof.
  unfold coerce_option, counted. cbn [List.filter fst]. destruct (existsb (str_eqb n) ov); cbn [negb].
  - split; [constructor|eauto].
  - rewrite set_accepts, Forall_singleton. reflexivity.
Qed.
Lemma Forall_counted ov items : Forall (fun e => Forall fine (counted ov [e])) items <-> Forall fine (counted ov items).
Proof.
  induction items as [|e items IH]; [split; constructor|]. rewrite Forall_cons, IH.
  change (e :: items) with ([e] ++ items). unfold counted. rewrite List.filter_app, Forall_app. reflexivity.
Qed.
Lemma items_accepts ov items o : (exists o', coerce_items ov items o = Ok o') <-> Forall fine (counted ov items).
Proof.
  rewrite <- Forall_counted. apply rfold_accepts. intros [n v] o'. apply coerce_accepts.
Qed.

(** ** sorting the sections *)
Lemma code_inj a b : code a = code b -> a = b.
Proof. unfold code. intros H. apply N2Z.inj in H. rewrite <- (ascii_N_embedding a), <- (ascii_N_embedding b), H. reflexivity. Qed.
Lemma str_ltb_iff a b : str_ltb a b = true <-> before a b.
Proof.
  revert b. induction a as [|x a IH]; intros [|y b]; cbn [str_ltb].
  - split; [discriminate|intros H; inversion H].
  - split; [intros; constructor|reflexivity].
  - split; [discriminate|intros H; inversion H].
  - rewrite orb_true_iff, andb_true_iff, Z.ltb_lt, Z.eqb_eq. rewrite IH. split.
    + intros [H|[H1 H2]]; [apply bf_here; exact H|]. apply code_inj in H1. subst. apply bf_later. exact H2.
    + intros H. inversion H; subst; auto.
Qed.
Lemma before_total a : forall b, before a b \/ a = b \/ before b a.
Proof.
  induction a as [|x a IH]; intros [|y b]; auto; try solve [left; constructor]; try solve [right; right; constructor].
  destruct (Z.lt_trichotomy (code x) (code y)) as [H|[H|H]].
  - left. apply bf_here. exact H.
  - apply code_inj in H. subst. destruct (IH b) as [H|[->|H]]; auto; [left|right; right]; apply bf_later; exact H.
  - right; right. apply bf_here. exact H.
Qed.
Lemma before_trans a b c : before a b -> before b c -> before a c.
Proof.
  revert b c. induction a as [|x a IH]; intros b c H1 H2.
  - inversion H1; subst. inversion H2; subst; constructor.
  - inversion H1; subst; inversion H2; subst.
    + apply bf_here. lia.
    + apply bf_here. assumption.
    + apply bf_here. assumption.
    + apply bf_later. eauto.
Qed.
Lemma before_irrefl a : ~ before a a.
Proof. induction a as [|x a IH]; intros H; inversion H; subst; [lia|auto]. Qed.
Notation sec_before := (fun s t : section => before (fst s) (fst t)).
Lemma sec_insert_perm x l : Permutation (sec_insert x l) (x :: l).
Proof.
  induction l as [|y l IH]; cbn; [reflexivity|]. destruct (str_ltb _ _); [reflexivity|]. rewrite IH. constructor.
Qed.
Lemma sec_sort_perm l : Permutation (sec_sort l) l.
Proof. induction l as [|x l IH]; cbn; [reflexivity|]. rewrite sec_insert_perm. rewrite IH. reflexivity. Qed.
Lemma sec_insert_sorted x l : StronglySorted sec_before l -> ~ In (fst x) (map fst l) -> StronglySorted sec_before (sec_insert x l).
Proof.
  induction l as [|y l IH]; cbn [sec_insert]; intros Hs Hn.
  - repeat constructor.
  - inversion Hs as [|? ? Hs' Hf]; subst. destruct (str_ltb (fst x) (fst y)) eqn:E.
    + apply str_ltb_iff in E. constructor; [exact Hs|]. constructor; [exact E|]. eapply Forall_impl; [exact Hf|].
      intros z Hz. cbn in Hz |- *. eapply before_trans; eauto.
    + constructor; [apply IH; [exact Hs'|]; intros H; apply Hn; right; exact H|].
      rewrite sec_insert_perm. constructor; [|exact Hf].
      destruct (before_total (fst y) (fst x)) as [H|[H|H]]; [exact H| |].
      * destruct Hn. left. exact H.
      * apply str_ltb_iff in H. congruence.
Qed.
Lemma sec_sort_sorted l : NoDup (map fst l) -> StronglySorted sec_before (sec_sort l).
Proof.
  induction l as [|x l IH]; cbn [sec_sort fold_right map]; intros Hn; [constructor|]. apply NoDup_cons in Hn as [Hx Hn].
  apply sec_insert_sorted; [apply IH; exact Hn|]. intros H. apply Hx. apply elem_of_list_In.
  apply in_map_iff in H as (z & Ez & Hz). apply in_map_iff. exists z. split; [exact Ez|].
  eapply Permutation_in; [apply sec_sort_perm|exact Hz].
Qed.
Lemma sorted_unique (l1 l2 : list section) : StronglySorted sec_before l1 -> StronglySorted sec_before l2 -> Permutation l1 l2 -> l1 = l2.
Proof.
  revert l2. induction l1 as [|x l1 IH]; intros l2 H1 H2 Hp.
  - apply Permutation_nil in Hp. congruence.
  - destruct l2 as [|y l2]; [symmetry in Hp; apply Permutation_nil in Hp; discriminate|].
    inversion H1 as [|? ? H1' F1]; subst. inversion H2 as [|? ? H2' F2]; subst.
    assert (E : x = y).
    { assert (Hy : In y (x :: l1)) by (eapply Permutation_in; [symmetry; exact Hp|left; reflexivity]).
      assert (Hx : In x (y :: l2)) by (eapply Permutation_in; [exact Hp|left; reflexivity]).
      destruct Hy as [|Hy]; [assumption|]. destruct Hx as [|Hx]; [congruence|].
      rewrite List.Forall_forall in F1, F2. specialize (F1 y Hy). specialize (F2 x Hx). cbn in F1, F2.
      destruct (before_irrefl _ (before_trans _ _ _ F1 F2)). }
    subst y. f_equal. apply IH; auto. eapply Permutation_cons_inv; exact Hp.
Qed.

(** ** the configuration file *)
Lemma find_section_iff n file items : NoDup (map fst file) -> (find_section n file = Some items <-> In (n, items) file).
Proof.
  intros Hn. unfold find_section. split.
  - destruct (List.find _ _) as [[n' i']|] eqn:E; [|discriminate]. intros H; cbn in H; inversion H; subst.
    apply List.find_some in E as [H1 H2]. apply str_eqb_eq in H2. cbn in H2. subst. exact H1.
  - intros H. rewrite (find_key _ _ (n, items)); [reflexivity| |exact H|apply str_eqb_refl].
    intros [n' i'] H' E. apply str_eqb_eq in E. cbn in E. subst. exact (NoDup_key fst _ _ _ Hn H' H eq_refl).
Qed.
Lemma counted_app ov a b : counted ov (a ++ b) = counted ov a ++ counted ov b.
Proof. apply List.filter_app. Qed.
Definition sec_entries (secs : list section) : list (str * str) :=
  concat (map snd (filter (fun s => B "carbon-cache" `prefix_of` fst s) secs)).
Lemma starts_prefix p s : starts_with p s = true <-> p `prefix_of` s.
Proof. rewrite starts_with_iff. reflexivity. Qed.
Definition sec_step (ov : list str) (o : options) (s : section) : res options :=
  let '(name, items) := s in
  let o := if starts_with (B "plugin_") name then <[name := OPairs items]> o else o in
  if starts_with (B "carbon-cache") name then coerce_items ov items o else Ok o.
Definition sec_tr (ov : list str) (s : section) : list (str * str) :=
  if starts_with (B "carbon-cache") (fst s) then counted ov (snd s) else [].
Lemma sec_tr_concat ov secs : concat (map (sec_tr ov) secs) = counted ov (sec_entries secs).
Proof.
  induction secs as [|[n i] secs IH]; [reflexivity|]. cbn [map concat]. rewrite IH. unfold sec_tr, sec_entries at 2. cbn [fst snd].
  destruct (starts_with (B "carbon-cache") n) eqn:E.
  - rewrite filter_cons_True by (apply starts_prefix; exact E). cbn [map concat snd]. rewrite counted_app. reflexivity.
  - rewrite filter_cons_False; [reflexivity|]. cbn. intros H. apply starts_prefix in H. congruence.
Qed.
Lemma plugin_upto tr n items o : starts_with (B "plugin_") n = true -> upto tr o -> upto tr (<[n := OPairs items]> o).
Proof.
  intros Hp Hu m c d k Hm. rewrite lookup_insert_ne; [exact (Hu m c d k Hm)|].
  intros ->. rewrite (table_plugin _ _ _ _ Hm) in Hp. discriminate.
Qed.
Lemma sec_upto ov tr s o o' : upto tr o -> sec_step ov o s = Ok o' -> upto (tr ++ sec_tr ov s) o'.
Proof.
  destruct s as [n items]. unfold sec_step, sec_tr. cbn [fst snd]. intros Hu H.
  set (o1 := if starts_with (B "plugin_") n then <[n := OPairs items]> o else o) in H.
  assert (Hu1 : upto tr o1) by (unfold o1; destruct (starts_with (B "plugin_") n) eqn:E; [apply plugin_upto; assumption|exact Hu]).
  destruct (starts_with (B "carbon-cache") n).
  - eapply items_upto; eauto.
  - inversion H; subst. rewrite app_nil_r. exact Hu1.
Qed.
Lemma sec_accepts ov s o : (exists o', sec_step ov o s = Ok o') <-> Forall fine (sec_tr ov s).
Proof.
  destruct s as [n items]. unfold sec_step, sec_tr. cbn [fst snd]. destruct (starts_with (B "carbon-cache") n).
  - apply items_accepts.
  - split; [constructor|eauto].
Qed.
Lemma entries_iff file es : NoDup (map fst file) ->
  (entries file es <-> exists items, In (B "statsd", items) file /\ es = items ++ sec_entries (sec_sort file)).
Proof.
  intros Hn. split.
  - intros (items & secs & H1 & H2 & H3 & ->). exists items. split; [exact H1|].
    assert (E : secs = sec_sort file); [|subst; reflexivity].
    apply sorted_unique; [exact H3|apply sec_sort_sorted; exact Hn|]. rewrite H2. symmetry. apply sec_sort_perm.
  - intros (items & H1 & ->). exists items, (sec_sort file). split; [exact H1|]. split; [apply sec_sort_perm|].
    split; [apply sec_sort_sorted; exact Hn|reflexivity].
Qed.
Lemma Forall_sec_tr ov secs : Forall (fun s => Forall fine (sec_tr ov s)) secs <-> Forall fine (counted ov (sec_entries secs)).
Proof.
  rewrite <- sec_tr_concat. induction secs as [|s secs IH]; [split; constructor|].
  cbn [map concat]. rewrite Forall_cons, Forall_app, IH. reflexivity.
Qed.
Lemma configure_upto ov tr file o o' : NoDup (map fst file) -> upto tr o -> configure ov file o = Ok o' ->
  exists es, entries file es /\ upto (tr ++ counted ov es) o'.
Proof.
  intros Hn Hu H. unfold configure in H. destruct (find_section (B "statsd") file) as [items|] eqn:E; [|discriminate].
  apply find_section_iff in E; [|exact Hn]. destruct (coerce_items ov items o) as [o1|e] eqn:E1; cbn [rbind] in H; [|discriminate].
  exists (items ++ sec_entries (sec_sort file)). split; [apply entries_iff; eauto|].
  rewrite counted_app, app_assoc, <- sec_tr_concat.
  eapply (rfold_upto (sec_step ov) (sec_tr ov)); [|eapply items_upto; eauto|exact H].
  intros. eapply sec_upto; eauto.
Qed.
Lemma configure_accepts ov file o : NoDup (map fst file) ->
  ((exists o', configure ov file o = Ok o') <-> exists es, entries file es /\ Forall fine (counted ov es)).
Proof.
  intros Hn. unfold configure. split.
  - intros (o' & H). destruct (find_section (B "statsd") file) as [items|] eqn:E; [|discriminate].
    apply find_section_iff in E; [|exact Hn]. destruct (coerce_items ov items o) as [o1|e] eqn:E1; cbn [rbind] in H; [|discriminate].
    exists (items ++ sec_entries (sec_sort file)). split; [apply entries_iff; eauto|].
    rewrite counted_app, Forall_app. split; [apply (items_accepts ov items o); eauto|].
    apply Forall_sec_tr. apply (rfold_accepts (sec_step ov) _ (sec_sort file)) with (o := o1); [|eauto]. intros a o2. apply sec_accepts.
  - intros (es & He & Hf). apply entries_iff in He as (items & Hi & ->); [|exact Hn].
    rewrite counted_app, Forall_app in Hf. destruct Hf as [Hf1 Hf2].
    rewrite (proj2 (find_section_iff _ _ items Hn) Hi). apply (items_accepts ov items o) in Hf1 as (o1 & ->). cbn [rbind].
    apply Forall_sec_tr in Hf2. apply (rfold_accepts (sec_step ov) _ (sec_sort file)) with (o := o1) in Hf2; [exact Hf2|].
    intros a o2. apply sec_accepts.
Qed.

(** ** the command line *)
Definition arg_tr (a : flag * str) : list (str * str) :=
  match flag_name (fst a) with Some n => [(n, snd a)] | None => [] end.
Notation cmd args := (concat (map arg_tr args)).
Definition arg_step (o : options) (a : flag * str) : res options :=
  let '(f, v) := a in match flag_name f with Some n => set_option UsageError n v o | None => Ok o end.
Lemma arg_upto tr a o o' : upto tr o -> arg_step o a = Ok o' -> upto (tr ++ arg_tr a) o'.
Proof.
  destruct a as [f v]. unfold arg_step, arg_tr. cbn [fst snd]. intros Hu H. destruct (flag_name f).
  - eapply set_upto; eauto.
  - inversion H; subst. rewrite app_nil_r. exact Hu.
Qed.
Lemma arg_accepts a o : (exists o', arg_step o a = Ok o') <-> Forall fine (arg_tr a).
Proof.
  destruct a as [f v]. unfold arg_step, arg_tr. cbn [fst snd]. destruct (flag_name f).
  - rewrite set_accepts, Forall_singleton. reflexivity.
  - split; [constructor|eauto].
Qed.
Lemma given_iff n args vs : given n args vs <-> vals n (cmd args) = vs.
Proof.
  split.
  - induction 1 as [|f v args vs Hn _ IH|f v args vs Hn _ IH]; [reflexivity| |]; cbn [map concat]; rewrite vals_app, IH; unfold arg_tr; cbn [fst snd].
    + apply flag_name_iff in Hn. rewrite Hn, vals_one. reflexivity.
    + destruct (flag_name f) as [m|] eqn:E; [|reflexivity]. rewrite vals_other; [reflexivity|]. intros ->. apply Hn, flag_name_iff. exact E.
  - intros <-. induction args as [|[f v] args IH]; [constructor|]. cbn [map concat]. rewrite vals_app. unfold arg_tr at 1. cbn [fst snd].
    destruct (flag_name f) as [m|] eqn:E.
    + destruct (decide (m = n)) as [->|Hne].
      * rewrite vals_one. apply gv_hit; [apply flag_name_iff; exact E|exact IH].
      * rewrite vals_other by exact Hne. apply gv_miss; [|exact IH]. intros H. apply flag_name_iff in H. congruence.
    + apply gv_miss; [|exact IH]. intros H. apply flag_name_iff in H. congruence.
Qed.
Lemma overridden_iff (args : list (flag * str)) n c d k : In (n, c, d, k) option_table ->
  (existsb (str_eqb n) (map (fun '(f, _) => flag_text f) args) = true <-> In (FLong n) (map fst args)).
Proof.
  intros Hin. rewrite existsb_str, !in_map_iff. split.
  - intros ([f v] & E & H). destruct f as [m|a]; cbn in E; [subst m; exists (FLong n, v); auto|].
    pose proof (table_long _ _ _ _ Hin). subst n. cbn in *. lia.
  - intros ([f v] & E & H). cbn in E. subst f. exists (FLong n, v). auto.
Qed.
Lemma vals_counted ov n es : vals n (counted ov es) = if existsb (str_eqb n) ov then [] else vals n es.
Proof.
  induction es as [|[m v] es IH]; [destruct (existsb _ ov); reflexivity|].
  change ((m, v) :: es) with ([(m, v)] ++ es). rewrite counted_app, !vals_app, IH. unfold counted. cbn [List.filter fst].
  destruct (decide (m = n)) as [->|Hne].
  - destruct (existsb (str_eqb n) ov); reflexivity.
  - rewrite (vals_other n m v Hne). destruct (existsb (str_eqb m) ov); cbn [negb]; [reflexivity|]. rewrite vals_other by exact Hne. reflexivity.
Qed.
Lemma config_at args o : upto (cmd args) o ->
  exists x, o !! B "config" = Some x /\
    (x = ONone /\ config_path args None \/ exists path, x = OS path /\ config_path args (Some path)).
Proof.
  intros Hu. destruct (Hu (B "config") "c"%char ONone KStr) as (xs & Hxs & Ho); [left; reflexivity|].
  eexists. split; [exact Ho|]. cbn [settled].
  assert (Hl : match last xs with Some x => exists v, last (vals (B "config") (cmd args)) = Some v /\ x = OS v | None => last (vals (B "config") (cmd args)) = None end).
  { clear Ho. revert Hxs. generalize (vals (B "config") (cmd args)). intros vs H. induction H as [|v x vs xs Hv H IH]; [reflexivity|].
    inversion Hv; subst. destruct H; [cbn; eauto|exact IH]. }
  destruct (last xs) as [x|].
  - right. destruct Hl as (v & Hl & ->). exists v. split; [reflexivity|]. eexists. split; [apply given_iff; reflexivity|exact Hl].
  - left. split; [reflexivity|]. eexists. split; [apply given_iff; reflexivity|exact Hl].
Qed.
Lemma given_fun n args a b : given n args a -> given n args b -> a = b.
Proof. rewrite !given_iff. congruence. Qed.
Lemma config_path_fun args p q : config_path args p -> config_path args q -> p = q.
Proof. intros (a & Ha & <-) (b & Hb & <-). rewrite (given_fun _ _ _ _ Ha Hb). reflexivity. Qed.
Lemma entries_fun file a b : NoDup (map fst file) -> entries file a -> entries file b -> a = b.
Proof.
  intros Hn Ha Hb. apply entries_iff in Ha as (i & Hi & ->); [|exact Hn]. apply entries_iff in Hb as (j & Hj & ->); [|exact Hn].
  assert (E : (B "statsd", i) = (B "statsd", j)) by exact (NoDup_key fst _ _ _ Hn Hi Hj eq_refl). congruence.
Qed.
Definition well_formed (files : str -> list section) : Prop := forall p, NoDup (map fst (files p)).

Lemma parse_upto files args o : well_formed files -> parse_options files args = Ok o ->
  (config_path args None /\ upto (cmd args) o) \/
  exists path es, config_path args (Some path) /\ entries (files path) es /\
    upto (cmd args ++ counted (map (fun '(f, _) => flag_text f) args) es) o.
Proof.
  intros Hw H. unfold parse_options in H. destruct (forallb _ args); [|discriminate].
  change (fun o '(f, v) => match flag_name f with Some n => set_option UsageError n v o | None => Ok o end) with arg_step in H.
  destruct (rfold arg_step args options_init) as [o1|e] eqn:E; cbn [rbind] in H; [|discriminate].
  assert (Hu : upto (cmd args) o1) by exact (rfold_upto arg_step arg_tr args (fun tr a o o' => arg_upto tr a o o') [] _ _ upto_init E).
  destruct (config_at args o1 Hu) as (x & Hx & [[-> Hc]|(path & -> & Hc)]); rewrite Hx in H.
  - inversion H; subst. left. auto.
  - right. destruct (configure_upto _ _ _ _ _ (Hw path) Hu H) as (es & He & Hu'). eauto.
Qed.
Lemma option_value files args o n c d k : well_formed files -> parse_options files args = Ok o -> In (n, c, d, k) option_table ->
  exists vs xs, supplied files args n vs /\ Forall2 (reads_as k) vs xs /\ o !! n = Some (settled k d xs).
Proof.
  intros Hw H Hin. destruct (parse_upto files args o Hw H) as [[Hc Hu]|(path & es & Hc & He & Hu)]; destruct (Hu n c d k Hin) as (xs & Hxs & Ho).
  - exists (vals n (cmd args)), xs. split; [|auto]. exists (vals n (cmd args)), []. split; [apply given_iff; reflexivity|].
    split; [apply ff_none; exact Hc|]. rewrite app_nil_r. reflexivity.
  - eexists _, xs. split; [|split; [exact Hxs|exact Ho]]. rewrite vals_app, vals_counted. eexists _, _. split; [apply given_iff; reflexivity|].
    split; [|reflexivity].
    destruct (existsb (str_eqb n) (map (fun '(f, _) => flag_text f) args)) eqn:E.
    + apply (overridden_iff args n c d k Hin) in E. eapply ff_overridden; eauto.
    + eapply ff_entries; [exact Hc| |exact He]. intros Hl. apply (overridden_iff args n c d k Hin) in Hl. congruence.
Qed.
Lemma supplied_fun files args n a b : well_formed files -> supplied files args n a -> supplied files args n b -> a = b.
Proof.
  intros Hw (g1 & c1 & H1 & F1 & ->) (g2 & c2 & H2 & F2 & ->). rewrite (given_fun _ _ _ _ H1 H2). f_equal.
  destruct F1 as [C1|p1 C1 L1|p1 e1 C1 L1 E1], F2 as [C2|p2 C2 L2|p2 e2 C2 L2 E2]; try reflexivity; try contradiction;
    pose proof (config_path_fun _ _ _ C1 C2) as E; try discriminate.
  inversion E; subst. rewrite (entries_fun _ _ _ (Hw p2) E1 E2). reflexivity.
Qed.
(** the value an option ends with *)
Lemma option_settled files args o n c d k vs : well_formed files -> parse_options files args = Ok o -> In (n, c, d, k) option_table ->
  supplied files args n vs -> exists xs, Forall2 (reads_as k) vs xs /\ o !! n = Some (settled k d xs).
Proof.
  intros Hw H Hin Hs. destruct (option_value files args o n c d k Hw H Hin) as (vs' & xs & Hs' & Hr).
  rewrite (supplied_fun _ _ _ _ _ Hw Hs Hs'). eauto.
Qed.
Lemma fine_vals tr : Forall fine tr <-> forall n c d k, In (n, c, d, k) option_table -> Forall (fun v => exists x, reads_as k v x) (vals n tr).
Proof.
  split.
  - intros H n c d k Hin. unfold vals. apply List.Forall_forall. intros v Hv. apply in_map_iff in Hv as ([m v'] & <- & Hv).
    apply elem_of_list_In, elem_of_list_filter in Hv as [E Hv]. cbn in E. subst m.
    rewrite Forall_forall in H. exact (H _ Hv c d k Hin).
  - intros H. apply Forall_forall. intros [n v] Hv c d k Hin. cbn in *. specialize (H n c d k Hin).
    rewrite Forall_forall in H. apply H. unfold vals. apply elem_of_list_fmap. exists (n, v). split; [reflexivity|].
    apply elem_of_list_filter. auto.
Qed.
(** the command lines and files that are accepted *)
Lemma parse_accepts files args : well_formed files ->
  ((exists o, parse_options files args = Ok o) <->
   Forall (fun a => exists n, names (fst a) n) args /\
   (forall path, config_path args (Some path) -> exists items, In (B "statsd", items) (files path)) /\
   forall n c d k, In (n, c, d, k) option_table ->
     exists vs, supplied files args n vs /\ Forall (fun v => exists x, reads_as k v x) vs).
Proof.
  intros Hw. split.
  - intros (o & H). split; [|split].
    + unfold parse_options in H. destruct (forallb _ args) eqn:E; [|discriminate]. rewrite forallb_forall in E.
      apply List.Forall_forall. intros [f v] Hin. specialize (E _ Hin). cbn in E |- *. destruct (flag_name f) as [n|] eqn:En; [|discriminate].
      exists n. apply flag_name_iff. exact En.
    + intros path Hc. destruct (parse_upto files args o Hw H) as [[Hc' _]|(p & es & Hc' & He & _)];
        pose proof (config_path_fun _ _ _ Hc Hc') as E; inversion E; subst.
      apply entries_iff in He as (items & Hi & _); [eauto|apply Hw].
    + intros n c d k Hin. destruct (option_value files args o n c d k Hw H Hin) as (vs & xs & Hs & Hr & _).
      exists vs. split; [exact Hs|]. clear -Hr. induction Hr; constructor; eauto.
  - intros (Hf & Hsec & Hv). unfold parse_options.
    assert (Hall : forallb (fun '(f, _) => match flag_name f with Some _ => true | None => false end) args = true).
    { apply forallb_forall. intros [f v] Hin. rewrite List.Forall_forall in Hf. destruct (Hf _ Hin) as (n & Hn). cbn in Hn.
      apply flag_name_iff in Hn. rewrite Hn. reflexivity. }
    rewrite Hall.
    change (fun o '(f, v) => match flag_name f with Some n => set_option UsageError n v o | None => Ok o end) with arg_step.
    assert (Hcmd : Forall fine (cmd args)).
    { apply fine_vals. intros n c d k Hin. destruct (Hv n c d k Hin) as (vs & (gs & cs & Hg & _ & ->) & Hr).
      apply Forall_app in Hr as [Hr _]. apply given_iff in Hg. rewrite Hg. exact Hr. }
    assert (Hok : exists o1, rfold arg_step args options_init = Ok o1).
    { apply (rfold_accepts arg_step _ args (fun a o => arg_accepts a o)).
      clear -Hcmd. induction args as [|a args IH]; [constructor|]. cbn [map concat] in Hcmd. apply Forall_app in Hcmd as [H1 H2]. constructor; auto. }
    destruct Hok as (o1 & E). rewrite E. cbn [rbind].
    assert (Hu : upto (cmd args) o1) by exact (rfold_upto arg_step arg_tr args (fun tr a o o' => arg_upto tr a o o') [] _ _ upto_init E).
    destruct (config_at args o1 Hu) as (x & Hx & [[-> Hc]|(path & -> & Hc)]); rewrite Hx; [eauto|].
    apply configure_accepts; [apply Hw|]. destruct (Hsec path Hc) as (items & Hi).
    eexists. split; [apply entries_iff; [apply Hw|eauto]|]. apply fine_vals. intros n c d k Hin. rewrite vals_counted.
    destruct (existsb (str_eqb n) _) eqn:Eo; [constructor|].
    destruct (Hv n c d k Hin) as (vs & (gs & cs & Hg & Hff & ->) & Hr). apply Forall_app in Hr as [_ Hr].
    destruct Hff as [C1|p1 C1 L1|p1 e1 C1 L1 E1]; pose proof (config_path_fun _ _ _ Hc C1) as Ep; inversion Ep; subst p1.
    + apply (overridden_iff args n c d k Hin) in L1. congruence.
    + pose proof (proj2 (entries_iff (files path) _ (Hw path)) (ex_intro _ items (conj Hi eq_refl))) as E2.
      rewrite (entries_fun _ _ _ (Hw path) E2 E1). exact Hr.
Qed.
