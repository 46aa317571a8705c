(** Facts about plugin sections, destinations, carbon statistics and sending. *)
From Verif Require Import Base Num StrFacts Env Gen Metrics Processor ReceiveFacts Sched CSched Process LineSpec RouterSpec ProcessSpec
  RouterFacts ProcessFacts Service ServiceSpec ServiceFacts.

(** ** plugin sections *)
Lemma set_other bad n v o o' m : set_option bad n v o = Ok o' -> kind_of m = None -> o' !! m = o !! m.
Proof.
  intros H Hm. unfold set_option in H. destruct (kind_of n) as [k|] eqn:Hk; [|inversion H; reflexivity].
  assert (Hne : n <> m) by congruence.
  assert (Ha : forall x, append_opt n x o !! m = o !! m).
  { intros x. unfold append_opt. destruct (o !! n) as [[]|]; try reflexivity. apply lookup_insert_ne. exact Hne. }
  destruct k.
  - inversion H; subst. apply lookup_insert_ne. exact Hne.
  - destruct (parse_int v); inversion H; subst. apply lookup_insert_ne. exact Hne.
  - inversion H; subst. apply Ha.
  - destruct (port_coerce v); cbn [rbind] in H; inversion H; subst. apply Ha.
  - inversion H; subst. apply Ha.
Qed.
Lemma rfold_keeps {A S} (f : S -> A -> res S) (P : S -> Prop) (l : list A) :
  (forall s a s', In a l -> P s -> f s a = Ok s' -> P s') -> forall s s', P s -> rfold f l s = Ok s' -> P s'.
Proof.
  induction l as [|a l IH]; intros Hf s s' Hp H; cbn in H; [inversion H; subst; exact Hp|].
  destruct (f s a) as [s1|e] eqn:E; cbn in H; [|discriminate].
  apply (IH (fun s a s' Hin => Hf s a s' (or_intror Hin)) s1 s'); [|exact H]. exact (Hf s a s1 (or_introl eq_refl) Hp E).
Qed.
Lemma items_other ov items o o' m : coerce_items ov items o = Ok o' -> kind_of m = None -> o' !! m = o !! m.
Proof.
  intros H Hm. apply (rfold_keeps (fun o '(n, v) => coerce_option ov n v o) (fun o1 => o1 !! m = o !! m) items) with (s := o); [|reflexivity|exact H].
  intros s [n v] s' _ Hs Hc. unfold coerce_option in Hc. destruct (existsb _ _); [inversion Hc; subst; exact Hs|].
  rewrite (set_other _ _ _ _ _ _ Hc Hm). exact Hs.
Qed.
Lemma plugin_no_kind n : starts_with (B "plugin_") n = true -> kind_of n = None.
Proof.
  intros H. destruct (kind_of n) as [k|] eqn:E; [|reflexivity]. apply kind_some in E as (c & d & E).
  rewrite (table_plugin _ _ _ _ E) in H. discriminate.
Qed.
Lemma sec_other ov o s o' m : sec_step ov o s = Ok o' -> kind_of m = None -> fst s <> m -> o' !! m = o !! m.
Proof.
  destruct s as [n items]. unfold sec_step. cbn [fst]. intros H Hm Hne.
  set (o1 := if starts_with (B "plugin_") n then <[n := OPairs items]> o else o) in H.
  assert (E1 : o1 !! m = o !! m) by (unfold o1; destruct (starts_with (B "plugin_") n); [apply lookup_insert_ne; exact Hne|reflexivity]).
  destruct (starts_with (B "carbon-cache") n).
  - rewrite (items_other _ _ _ _ _ H Hm). exact E1.
  - inversion H; subst. exact E1.
Qed.
Lemma plugin_sections files args o path n items : well_formed files -> parse_options files args = Ok o ->
  config_path args (Some path) -> In (n, items) (files path) -> B "plugin_" `prefix_of` n -> o !! n = Some (OPairs items).
Proof.
  intros Hw H Hc Hin Hp. apply starts_prefix in Hp. pose proof (plugin_no_kind n Hp) as Hk.
  unfold parse_options in H. destruct (forallb _ args); [|discriminate].
  change (fun o '(f, v) => match flag_name f with Some n => set_option UsageError n v o | None => Ok o end) with arg_step in H.
  destruct (rfold arg_step args options_init) as [o1|e] eqn:E; cbn [rbind] in H; [|discriminate].
  assert (Hu : upto (concat (map arg_tr args)) o1) by exact (rfold_upto arg_step arg_tr args (fun tr a o o' => arg_upto tr a o o') [] _ _ upto_init E).
  destruct (config_at args o1 Hu) as (x & Hx & [[-> Hc']|(p' & -> & Hc')]); pose proof (config_path_fun _ _ _ Hc Hc') as Ep; inversion Ep; subst p'.
  rewrite Hx in H. unfold configure in H. destruct (find_section _ _) as [i0|]; [|discriminate].
  destruct (coerce_items _ i0 o1) as [o2|e] eqn:E2; cbn [rbind] in H; [|discriminate].
  match type of H with rfold ?f ?l o2 = _ => change (rfold (sec_step (map (fun '(fl, _) => flag_text fl) args)) l o2 = Ok o) in H end.
  assert (Hs : In (n, items) (sec_sort (files path))) by (eapply Permutation_in; [symmetry; apply sec_sort_perm|exact Hin]).
  assert (Hnd : NoDup (map fst (sec_sort (files path)))).
  { rewrite (Permutation_map fst (sec_sort_perm (files path))). exact (Hw path). }
  apply in_split in Hs as (l1 & l2 & Es). rewrite Es in H, Hnd.
  assert (Hafter : forall s, In s l2 -> fst s <> n).
  { intros s Hs Hne. rewrite map_app in Hnd. cbn [map fst] in Hnd. apply NoDup_app in Hnd as (_ & _ & Hnd).
    apply NoDup_cons in Hnd as [Hnd _]. apply Hnd. rewrite <- Hne. apply elem_of_list_In, in_map, Hs. }
  clear E E2 Hu Hx Es Hnd. revert o2 H. induction l1 as [|a l1 IH]; intros o2 H.
  - cbn [app rfold] in H. destruct (sec_step _ o2 (n, items)) as [o3|e] eqn:E3; cbn [rbind] in H; [|discriminate].
    assert (H3 : o3 !! n = Some (OPairs items)).
    { unfold sec_step in E3. rewrite Hp in E3. destruct (starts_with (B "carbon-cache") n).
      - rewrite (items_other _ _ _ _ _ E3 Hk). apply lookup_insert.
      - inversion E3; subst. apply lookup_insert. }
    rewrite <- H3. apply (rfold_keeps (sec_step (map (fun '(f, _) => flag_text f) args)) (fun o1 => o1 !! n = o3 !! n) l2) with (s := o3); [|reflexivity|exact H].
    intros s a s' Ha Hs Hstep. rewrite (sec_other _ _ _ _ _ Hstep Hk (Hafter a Ha)). exact Hs.
  - cbn [app rfold] in H. destruct (sec_step _ o2 a) as [o3|e]; cbn [rbind] in H; [|discriminate].
    exact (IH o3 H).
Qed.

(** ** destinations *)
Lemma nth_error_combine {A C} (l : list A) (m : list C) i a c :
  nth_error (combine l m) i = Some (a, c) <-> nth_error l i = Some a /\ nth_error m i = Some c.
Proof.
  revert m i. induction l as [|x l IH]; intros [|y m] [|i]; cbn; try (split; [discriminate|intros [? ?]; discriminate]).
  - split; [intros H; inversion H; auto|intros [H1 H2]; congruence].
  - apply IH.
Qed.
Definition or_one {A} (l l' : list A) (d : A) : Prop := (l = [] /\ l' = [d]) \/ (l <> [] /\ l' = l).
Lemma destinations_at hosts ports names hosts' ports' names' i h p n :
  or_one hosts hosts' (B "127.0.0.1") -> or_one ports ports' 2004 -> or_one names names' None ->
  (nth_error (destinations hosts ports names) i = Some (h, p, n) <->
   nth_error hosts' i = Some h /\ nth_error ports' i = Some p /\ nth_error names' i = Some n).
Proof.
  intros Hh Hp Hn. unfold destinations.
  assert (E : forall A (l l' : list A) d, or_one l l' d -> or_default l d = l').
  { intros A l l' d [[-> ->]|[Hl ->]]; [reflexivity|]. destruct l; [contradiction|reflexivity]. }
  rewrite (E _ _ _ _ Hh), (E _ _ _ _ Hp), (E _ _ _ _ Hn). rewrite !nth_error_combine. tauto.
Qed.
Lemma destinations_unnamed hosts ports : exists h p, destinations hosts ports [] = [(h, p, None)].
Proof.
  unfold destinations. destruct hosts as [|h [|h' hs]], ports as [|p [|p' ps]]; cbn; eauto.
Qed.

(** ** carbon statistics *)
Section carbon.
Context {V : Type} (zero : V).
Definition dest_item (i : str * V) : list (str * V) :=
  if starts_with (B "destinations") (fst i) then [(replace_char ":" "_" (fst i), snd i)] else [].
Lemma replaced_clean n : ~ In ":"%char (replace_char ":" "_" n).
Proof.
  unfold replace_char. rewrite in_map_iff. intros (c & E & _). destruct (eqc ":" c) eqn:Ec; [discriminate|].
  subst. rewrite (proj2 (eqc_eq _ _) eq_refl) in Ec. discriminate.
Qed.
Lemma replaced_same n : ~ In ":"%char n -> replace_char ":" "_" n = n.
Proof.
  intros H. unfold replace_char. induction n as [|c n IH]; [reflexivity|]. cbn [map]. destruct (eqc ":" c) eqn:Ec.
  - apply eqc_eq in Ec. subst. destruct H. left. reflexivity.
  - f_equal. apply IH. intros Hi. apply H. right. exact Hi.
Qed.
Lemma dest_key done k v : In (k, v) (concat (map dest_item done)) -> ~ In ":"%char k /\ starts_with (B "destinations") k = true.
Proof.
  intros H. apply in_concat in H as (l & Hl & H). apply in_map_iff in Hl as ([n x] & <- & _). unfold dest_item in H. cbn [fst snd] in H.
  destruct (starts_with (B "destinations") n) eqn:E; [|destruct H]. destruct H as [H|[]]. inversion H; subst.
  split; [apply replaced_clean|]. apply starts_with_iff in E as (t & ->). unfold replace_char. rewrite map_app. apply starts_with_iff.
  eexists. f_equal.
Qed.
Lemma last_of_in (l : list (str * V)) k v : last_of l k v -> In (k, v) l.
Proof. intros (a & b & -> & _). apply in_app_iff. right. left. reflexivity. Qed.
Lemma carbon_fold items : forall done cur (stats : gmap str V),
  NoDup (map fst (done ++ items)) ->
  (forall k v, cur !! k = Some v <-> last_of (concat (map dest_item done)) k v \/
     ((forall v', ~ In (k, v') (concat (map dest_item done))) /\ In (k, v) items)) ->
  (forall k, is_Some (stats !! k) <-> In k (map fst (done ++ items))) ->
  (forall k, In k (map fst done) -> stats !! k = Some zero) ->
  let '(cur', stats') := fold_left (carbon_step zero) items (cur, stats) in
  dict_of (concat (map dest_item (done ++ items))) cur' /\
  (forall k, is_Some (stats' !! k) <-> In k (map fst (done ++ items))) /\ (forall k v, stats' !! k = Some v -> v = zero).
Proof.
  induction items as [|[n v] items IH]; intros done cur stats Hnd Hcur Hst Hz; cbn [fold_left].
  - rewrite !app_nil_r in *. split; [|split; [exact Hst|]].
    + intros k v. rewrite Hcur. split; [intros [H|[_ []]]; exact H|auto].
    + intros k v H. assert (Hi : In k (map fst done)) by (apply Hst; eauto). rewrite (Hz k Hi) in H. congruence.
  - unfold carbon_step at 2. replace (done ++ (n, v) :: items) with ((done ++ [(n, v)]) ++ items) in * by (rewrite <- app_assoc; reflexivity).
    apply IH; [exact Hnd| | |].
    + assert (Hn : forall v', ~ In (n, v') items).
      { intros v' Hi. rewrite !map_app in Hnd. apply NoDup_app in Hnd as (_ & Hd & _). apply (Hd n).
        - apply elem_of_list_In, in_app_iff. right. left. reflexivity.
        - apply elem_of_list_In. change n with (fst (n, v')). apply in_map. exact Hi. }
      rewrite map_app, concat_app. cbn [map concat]. rewrite app_nil_r.
      assert (Hdel : forall k x, delete n cur !! k = Some x <->
        (k <> n /\ last_of (concat (map dest_item done)) k x) \/ ((forall v', ~ In (k, v') (concat (map dest_item done))) /\ k <> n /\ In (k, x) items)).
      { intros k x. destruct (decide (n = k)) as [<-|Hne].
        - rewrite lookup_delete. split; [discriminate|]. intros [[]|(? & ? & ?)]; contradiction.
        - rewrite lookup_delete_ne by exact Hne. rewrite Hcur. cbn [In]. split.
          + intros [H|[H [E|H']]]; [left; auto|congruence|right; auto].
          + intros [[_ H]|(H & _ & H')]; auto. }
      change (dest_item (n, v)) with (if starts_with (B "destinations") n then [(replace_char ":" "_" n, v)] else []).
      set (D := concat (map dest_item done)) in *. intros k x.
      destruct (starts_with (B "destinations") n) eqn:Ed.
      * destruct (decide (replace_char ":" "_" n = k)) as [<-|Hr].
        -- rewrite lookup_insert. split.
           ++ intros H; inversion H; subst. left. exists D, []. split; [reflexivity|]. intros v' [].
           ++ intros [H|[H _]].
              ** assert (H0 : last_of (D ++ [(replace_char ":" "_" n, v)]) (replace_char ":" "_" n) v)
                   by (exists D, []; split; [reflexivity|intros v' []]).
                 rewrite (last_of_unique _ _ _ _ H H0). reflexivity.
              ** destruct (H v). apply in_app_iff. right. left. reflexivity.
        -- rewrite lookup_insert_ne by exact Hr. rewrite Hdel.
           assert (Hone : forall v', ~ In (k, v') [(replace_char ":" "_" n, v)]) by (intros v' [E|[]]; inversion E; congruence).
           rewrite (last_of_app_l D _ k x Hone). split.
           ++ intros [[_ H]|(H1 & _ & H2)]; [left; exact H|right]. split; [|exact H2].
              intros v' Hi. apply in_app_iff in Hi as [Hi|Hi]; [exact (H1 v' Hi)|exact (Hone v' Hi)].
           ++ intros [H|[H1 H2]].
              ** left. split; [|exact H]. intros ->. apply last_of_in in H. apply dest_key in H as [H _]. apply Hr. apply replaced_same. exact H.
              ** right. split; [intros v' Hi; apply (H1 v'); apply in_app_iff; left; exact Hi|]. split; [|exact H2].
                 intros ->. exact (Hn _ H2).
      * rewrite app_nil_r. rewrite Hdel. split.
        -- intros [[_ H]|(H1 & _ & H2)]; auto.
        -- intros [H|[H1 H2]].
           ++ left. split; [|exact H]. intros ->. apply last_of_in, dest_key in H as [_ H]. congruence.
           ++ right. split; [exact H1|]. split; [|exact H2]. intros ->. exact (Hn _ H2).
    + intros k. destruct (decide (n = k)) as [<-|Hne].
      * rewrite lookup_insert. split; [intros _|eauto]. rewrite !map_app. apply in_app_iff. left. apply in_app_iff. right. left. reflexivity.
      * rewrite lookup_insert_ne by exact Hne. apply Hst.
    + intros k Hk. destruct (decide (n = k)) as [<-|Hne]; [apply lookup_insert|]. rewrite lookup_insert_ne by exact Hne.
      apply Hz. rewrite map_app in Hk. apply in_app_iff in Hk as [Hk|[E|[]]]; [exact Hk|cbn in E; congruence].
Qed.
Lemma report_carbon_ok items : NoDup (map fst items) ->
  let '(current, stats) := report_carbon zero items in
  dict_of (concat (map dest_item items)) current /\
  (forall k, is_Some (stats !! k) <-> In k (map fst items)) /\ (forall k v, stats !! k = Some v -> v = zero).
Proof.
  intros Hnd. unfold report_carbon. apply (carbon_fold items []); [exact Hnd| | |].
  - intros k v. cbn [map concat]. rewrite <- elem_of_list_In. rewrite <- (elem_of_list_to_map (M := gmap str)) by exact Hnd.
    split; [intros H; right; split; [intros v' []|exact H]|]. intros [(a & b & E & _)|[_ H]]; [destruct a; discriminate|exact H].
  - intros k. cbn [app]. rewrite <- elem_of_list_In. split.
    + intros [v H]. apply elem_of_list_to_map in H; [|exact Hnd]. apply elem_of_list_In, in_map_iff. exists (k, v). split; [reflexivity|].
      apply elem_of_list_In. exact H.
    + intros H. apply elem_of_list_In, in_map_iff in H as ([k' v] & E & H). cbn in E. subst. exists v.
      apply elem_of_list_to_map; [exact Hnd|]. apply elem_of_list_In. exact H.
  - intros k [].
Qed.
End carbon.

(** ** sending *)
Section sending.
Context `{NN : Num} {S : Type} (receive : str -> S -> S) (flush : gen S) (refuses : dp -> option exn).
Notation frun := (fold_left (fstep flush receive refuses)).
Notation fstep' := (fstep flush receive refuses).

(** each flush has its own number *)
Definition numbered (y : fsys (S := S)) : Prop :=
  NoDup (map fst (f_live y)) /\ (forall k, In k (map fst (f_live y)) -> (k < f_count y)%nat) /\
  (forall k, In k (map fst (f_live y)) -> ~ In k (map fst (f_ended y))) /\
  (forall k, In k (map fst (f_ended y)) -> (k < f_count y)%nat).
Lemma map_fst_insert {A} (l : list (nat * A)) i k a b : l !! i = Some (k, a) -> map fst (<[i := (k, b)]> l) = map fst l.
Proof.
  intros H. change (fst <$> <[i := (k, b)]> l = fst <$> l). rewrite list_fmap_insert. apply list_insert_id.
  rewrite list_lookup_fmap, H. reflexivity.
Qed.
Lemma map_fst_delete {A} (l : list (nat * A)) i k a : l !! i = Some (k, a) -> NoDup (map fst l) ->
  NoDup (map fst (delete i l)) /\ ~ In k (map fst (delete i l)) /\ (forall j, In j (map fst (delete i l)) -> In j (map fst l)) /\ In k (map fst l).
Proof.
  intros H Hn. rewrite (delete_Permutation _ _ _ H) in Hn. cbn [map fst] in Hn. apply NoDup_cons in Hn as [H1 H2].
  split; [exact H2|]. split; [rewrite <- elem_of_list_In; exact H1|]. split.
  - intros j Hj. rewrite (Permutation_in' eq_refl (Permutation_map fst (delete_Permutation _ _ _ H))). right. exact Hj.
  - rewrite (Permutation_in' eq_refl (Permutation_map fst (delete_Permutation _ _ _ H))). left. reflexivity.
Qed.
Lemma numbered_step y e : numbered y -> numbered (fstep' y e).
Proof.
  intros (H1 & H2 & H3 & H4). assert (Hdel : forall i k g s o sent, f_live y !! i = Some (k, g) ->
    numbered (FSys s (delete i (f_live y)) (f_count y) sent (f_ended y ++ [(k, o)]))).
  { intros i k g s o sent Hl. destruct (map_fst_delete _ _ _ _ Hl H1) as (D1 & D2 & D3 & D4). unfold numbered. cbn [f_live f_count f_ended].
    split; [exact D1|]. split; [auto|]. rewrite map_app. split.
    - intros j Hj Hi. apply in_app_iff in Hi as [Hi|[E|[]]]; [exact (H3 j (D3 j Hj) Hi)|]. cbn in E. subst. exact (D2 Hj).
    - intros j Hi. apply in_app_iff in Hi as [Hi|[E|[]]]; [auto|]. cbn in E. subst. auto. }
  destruct e as [m| |i]; cbn [fstep].
  - unfold numbered. auto.
  - unfold numbered. cbn [f_live f_count f_ended]. rewrite map_app. cbn [map fst]. split; [|split; [|split]].
    + apply NoDup_app. split; [exact H1|]. split; [|apply NoDup_singleton]. intros k Hk Hk'. apply elem_of_list_singleton in Hk'. subst.
      apply elem_of_list_In, H2 in Hk. lia.
    + intros k Hk. apply in_app_iff in Hk as [Hk|[<-|[]]]; [apply H2 in Hk|]; lia.
    + intros k Hk Hi. apply in_app_iff in Hk as [Hk|[<-|[]]]; [exact (H3 k Hk Hi)|]. apply H4 in Hi. lia.
    + intros k Hk. apply H4 in Hk. lia.
  - destruct (f_live y !! i) as [[k g]|] eqn:El; [|unfold numbered; auto].
    destruct (gnext g (f_st y)) as [s [d g'| |e]]; [|eapply Hdel; exact El|eapply Hdel; exact El].
    destruct (refuses d); [eapply Hdel; exact El|].
    unfold numbered. cbn [f_live f_count f_ended]. rewrite (map_fst_insert _ _ _ _ _ El). auto.
Qed.
Lemma numbered_run h y : numbered y -> numbered (frun h y).
Proof. revert y. induction h as [|e h IH]; intros y H; [exact H|]. cbn [fold_left]. apply IH, numbered_step, H. Qed.
Lemma numbered_init s : numbered (FSys s [] 0 [] []).
Proof. unfold numbered. cbn. repeat split; try constructor; intros k []. Qed.

(** what carbon was sent by one flush *)
Definition of_flush (k : nat) (y : fsys (S := S)) : list (str * (Z * pval)) := map snd (filter (fun x => fst x = k) (f_sent y)).
Lemma ended_step k y e : numbered y -> In k (map fst (f_ended y)) -> of_flush k (fstep' y e) = of_flush k y /\ In k (map fst (f_ended (fstep' y e))).
Proof.
  intros (H1 & H2 & H3 & H4) Hk. destruct e as [m| |i]; cbn [fstep]; try (split; [reflexivity|exact Hk]).
  destruct (f_live y !! i) as [[j g]|] eqn:El; [|split; [reflexivity|exact Hk]].
  destruct (gnext g (f_st y)) as [s [d g'| |e]].
  2,3: cbn [f_ended]; rewrite map_app; split; [reflexivity|apply in_app_iff; left; exact Hk].
  destruct (refuses d).
  - cbn [f_ended]; rewrite map_app; split; [reflexivity|apply in_app_iff; left; exact Hk].
  - split; [|exact Hk]. unfold of_flush. cbn [f_sent]. rewrite filter_app, filter_cons_False, app_nil_r; [reflexivity|].
    cbn. intros ->. refine (H3 k _ Hk). apply elem_of_list_lookup_2 in El. apply elem_of_list_In in El.
    change k with (fst (k, g)). apply in_map. exact El.
Qed.
Lemma ended_run k h : forall y, numbered y -> In k (map fst (f_ended y)) -> of_flush k (frun h y) = of_flush k y.
Proof.
  induction h as [|e h IH]; intros y Hn Hk; [reflexivity|]. cbn [fold_left].
  destruct (ended_step k y e Hn Hk) as [H1 H2]. rewrite (IH _ (numbered_step y e Hn) H2). exact H1.
Qed.
(** a refused datapoint ends its flush *)
Lemma refusal h s i k g st d g' e h' : let y := frun h (FSys s [] 0 [] []) in
  f_live y !! i = Some (k, g) -> gnext g (f_st y) = (st, Yielded d g') -> refuses d = Some e ->
  let y' := frun h' (fstep' y (FStep i)) in
  of_flush k y' = of_flush k y /\ In (k, Some e) (f_ended (fstep' y (FStep i))).
Proof.
  intros y Hl Hg Hr y'. assert (Hy : fstep' y (FStep i) = FSys st (delete i (f_live y)) (f_count y) (f_sent y) (f_ended y ++ [(k, Some e)]))
    by (cbn [fstep]; rewrite Hl, Hg, Hr; reflexivity).
  split.
  - unfold y'. rewrite ended_run.
    + rewrite Hy. reflexivity.
    + apply numbered_step, numbered_run, numbered_init.
    + rewrite Hy. cbn [f_ended]. rewrite map_app. apply in_app_iff. right. left. reflexivity.
  - rewrite Hy. cbn [f_ended]. apply in_app_iff. right. left. reflexivity.
Qed.
End sending.

Section accepted.
Context `{NN : Num} {S : Type} (receive : str -> S -> S).
Lemma next_run (g : gen S) : forall s, match gnext g s with
  | (s1, Yielded d g') => let '(s', l, o) := grun g' s1 in grun g s = (s', d :: l, o)
  | (s1, Finished) => grun g s = (s1, [], None)
  | (s1, Raised e) => grun g s = (s1, [], Some e)
  end.
Proof.
  induction g as [|e|f IH|ms k IH] using gen_ind'; intros s; cbn [gnext grun]; try reflexivity.
  - destruct (f s) as [s1 g1] eqn:E. specialize (IH s s1). rewrite E in IH. exact IH.
  - destruct ms as [|d ms].
    + specialize (IH s). destruct (grun k s) as [[s' l] o]. exact IH.
    + cbn [grun]. destruct (grun k s) as [[s' l] o]. reflexivity.
Qed.
(** an undisturbed flush sends what list(flush) gives *)
Lemma idle (flush : gen S) m : forall y, f_live y = [] -> fold_left (fstep flush receive (fun _ => None)) (repeat (FStep 0) m) y = y.
Proof. induction m as [|m IH]; intros y Hy; [reflexivity|]. cbn [repeat fold_left fstep]. rewrite Hy. cbn [lookup list_lookup]. apply IH. exact Hy. Qed.
Lemma drive (flush : gen S) n : forall (g : gen S) y k s' l o, (length l < n)%nat ->
  f_live y = [(k, g)] -> grun g (f_st y) = (s', l, o) ->
  fold_left (fstep flush receive (fun _ => None)) (repeat (FStep 0) n) y =
  FSys s' [] (f_count y) (f_sent y ++ map (fun d => (k, as_sent d)) l) (f_ended y ++ [(k, o)]).
Proof.
  induction n as [|n IH]; intros g y k s' l o Hn Hl Hg; [lia|]. cbn [repeat fold_left fstep]. rewrite Hl. cbn [lookup list_lookup].
  pose proof (next_run g (f_st y)) as Hx.
  destruct (gnext g (f_st y)) as [s1 [d g'| |e]].
  - destruct (grun g' s1) as [[s2 l2] o2] eqn:E2. rewrite Hx in Hg. inversion Hg; subst. cbn [length] in Hn.
    erewrite (IH g' _ k s' l2 o); [|lia| |exact E2].
    + cbn [f_count f_sent f_ended map]. rewrite <- app_assoc. reflexivity.
    + cbn [f_live]. rewrite ?Hl. reflexivity.
  - rewrite Hx in Hg. inversion Hg; subst. rewrite idle by (cbn [f_live]; rewrite ?Hl; reflexivity).
    cbn [map]. rewrite app_nil_r. reflexivity.
  - rewrite Hx in Hg. inversion Hg; subst. rewrite idle by (cbn [f_live]; rewrite ?Hl; reflexivity).
    cbn [map]. rewrite app_nil_r. reflexivity.
Qed.
Lemma undisturbed (flush : gen S) y n s' l o : f_live y = [] -> grun flush (f_st y) = (s', l, o) -> (length l < n)%nat ->
  fold_left (fstep flush receive (fun _ => None)) (FFlush :: repeat (FStep 0) n) y =
  FSys s' [] (Datatypes.S (f_count y)) (f_sent y ++ map (fun d => (f_count y, as_sent d)) l) (f_ended y ++ [(f_count y, o)]).
Proof.
  intros Hl Hg Hn. cbn [fold_left fstep]. rewrite Hl. cbn [app].
  erewrite (drive flush n flush _ (f_count y)); [reflexivity|exact Hn|reflexivity|exact Hg].
Qed.

(** any schedule: what is sent is what the processor's flushes emit *)
Definition ev (i p : Z) (e : fevent) : event :=
  match e with FInput m => Recv m | FFlush => Start i p | FStep k => Resume k end.
Definition failures (l : list (nat * option exn)) : list exn := omap snd l.
Lemma refines (fl : Z -> Z -> gen S) i p h : forall y z,
  f_st y = g_st z -> map snd (f_live y) = g_live z -> map snd (f_sent y) = map as_sent (g_out z) -> failures (f_ended y) = g_exn z ->
  let y' := fold_left (fstep (fl i p) receive (fun _ => None)) h y in let z' := gsys_run receive fl (map (ev i p) h) z in
  f_st y' = g_st z' /\ map snd (f_live y') = g_live z' /\ map snd (f_sent y') = map as_sent (g_out z') /\ failures (f_ended y') = g_exn z'.
Proof.
  induction h as [|e h IH]; intros y z H1 H2 H3 H4; [cbn; auto|]. cbn [fold_left map gsys_run].
  assert (Hf : forall k o, failures (f_ended y ++ [(k, o)]) = g_exn z ++ match o with Some e => [e] | None => [] end).
  { intros k o. unfold failures. rewrite omap_app. fold (failures (f_ended y)). rewrite H4. destruct o; reflexivity. }
  assert (Hd : forall j, map snd (delete j (f_live y)) = delete j (g_live z)).
  { intros j. rewrite <- H2. change (snd <$> delete j (f_live y) = delete j (snd <$> f_live y)). rewrite list_fmap_delete. reflexivity. }
  assert (Hk : forall k, g_live z !! k = snd <$> (f_live y !! k)).
  { intros k. rewrite <- H2. apply (list_lookup_fmap snd). }
  destruct e as [m| |k]; cbn [fstep ev gsys_step].
  - apply IH; cbn [f_st g_st f_live g_live f_sent g_out f_ended g_exn]; congruence.
  - apply IH; cbn [f_st g_st f_live g_live f_sent g_out f_ended g_exn]; try congruence. rewrite map_app, H2. reflexivity.
  - rewrite Hk, <- H1. destruct (f_live y !! k) as [[j g]|] eqn:El; cbn [fmap option_fmap option_map snd]; [|apply IH; assumption].
    destruct (gnext g (f_st y)) as [s1 [d g'| |e]]; apply IH; cbn [f_st g_st f_live g_live f_sent g_out f_ended g_exn]; try assumption; try reflexivity.
    + rewrite <- H2. apply (list_fmap_insert snd).
    + rewrite !map_app, H3. reflexivity.
    + apply Hd.
    + rewrite Hf, app_nil_r. reflexivity.
    + apply Hd.
    + rewrite Hf. reflexivity.
Qed.
Lemma sent_of_schedule (fl : Z -> Z -> gen S) i p h s :
  let y := fruns (fl i p) receive (fun _ => None) h s in let z := gsys_run receive fl (map (ev i p) h) (gsys_init s) in
  f_st y = g_st z /\ map snd (f_sent y) = map as_sent (g_out z) /\ failures (f_ended y) = g_exn z.
Proof.
  destruct (refines fl i p h (FSys s [] 0 [] []) (gsys_init s) eq_refl eq_refl eq_refl eq_refl) as (H1 & _ & H3 & H4). auto.
Qed.
End accepted.
