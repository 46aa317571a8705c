(** What an SLI metric is told and what is reported of it, in every interleaving. *)
From Verif Require Import Base StrFacts Num Env Stats Glob Metrics Gen GenFacts Processor
  LineSpec LineFacts FloatFacts ProcFacts ProcSpec ReceiveFacts ReceiveFacts2 ReceiveFacts3 PlugFacts
  Sched FlushInv FlushOk SchedFacts StepFacts SliConfig SliFacts SysRun.

Definition c_dot : ascii := "."%char.
(** a line of type sli for the name, and the sample it carries *)
Inductive sli_line `{NN : Num} (key : str) : str -> sample -> Prop :=
| sli_line_of m fields x : typed_line m (B "sli") key fields -> reads fields x -> sli_line key m x.
(** the sum of the whole numbers sent under a name *)
Definition int_of `{NN : Num} (v : pval) : Z := match v with VI n => n | VF _ => 0 end.
Definition sum_under `{NN : Num} (name : str) (l : list dp) : Z :=
  fold_right Z.add 0 (map (fun d => int_of (dp_value d)) (List.filter (fun d => str_eqb (dp_name d) name) l)).
(** the last part of a dotted name is determined *)
Lemma last_part a x b y : ~ In c_dot x -> ~ In c_dot y -> a ++ c_dot :: x = b ++ c_dot :: y -> a = b /\ x = y.
Proof.
  intros Hx Hy H. destruct (Nat.lt_trichotomy (length a) (length b)) as [Hl|[Hl|Hl]].
  - exfalso. apply Hx. apply (f_equal (drop (S (length a)))) in H.
    change (c_dot :: x) with ([c_dot] ++ x) in H. rewrite app_assoc, drop_app_alt in H by (rewrite app_length; cbn; lia).
    rewrite H, drop_app_le by lia. apply in_or_app. right. left. reflexivity.
  - apply app_inj_1 in H as [-> H]; [|exact Hl]. injection H as ->. auto.
  - exfalso. apply Hy. apply (f_equal (drop (S (length b)))) in H.
    change (c_dot :: y) with ([c_dot] ++ y) in H. rewrite (app_assoc b), (drop_app_alt (b ++ [c_dot])) in H by (rewrite app_length; cbn; lia).
    rewrite <- H, drop_app_le by lia. apply in_or_app. right. left. reflexivity.
Qed.

Section sums.
Context `{NN : Num}.
Lemma sum_under_app n l k : sum_under n (l ++ k) = sum_under n l + sum_under n k.
Proof.
  unfold sum_under. rewrite List.filter_app, map_app, fold_right_app.
  generalize (fold_right Z.add 0 (map (fun d => int_of (dp_value d)) (List.filter (fun d => str_eqb (dp_name d) n) k))).
  induction (map _ (List.filter _ l)) as [|a q IH]; intros z; cbn [fold_right]; [lia|]. rewrite IH. lia.
Qed.
Lemma sum_under_perm n l k : l ≡ₚ k -> sum_under n l = sum_under n k.
Proof.
  induction 1 as [|d l k _ IH|d d' l|l k q _ I1 _ I2]; [reflexivity| | |congruence].
  - change (d :: l) with ([d] ++ l). change (d :: k) with ([d] ++ k). rewrite !sum_under_app, IH. reflexivity.
  - change (d :: d' :: l) with ([d] ++ [d'] ++ l). change (d' :: d :: l) with ([d'] ++ [d] ++ l). rewrite !sum_under_app. lia.
Qed.
Lemma sum_under_none n l : Forall (fun d => dp_name d <> n) l -> sum_under n l = 0.
Proof.
  induction 1 as [|d l Hd _ IH]; [reflexivity|]. change (d :: l) with ([d] ++ l). rewrite sum_under_app, IH.
  unfold sum_under. cbn [List.filter]. apply str_eqb_neq in Hd. rewrite Hd. reflexivity.
Qed.
Lemma total_sum n l : total Z.add 0 (fun d => sum_under n [d]) l = sum_under n l.
Proof.
  induction l as [|d l IH]; [reflexivity|]. cbn [total fold_right].
  change (fold_right _ 0 l) with (total Z.add 0 (fun d => sum_under n [d]) l). rewrite IH. symmetry. apply (sum_under_app n [d] l).
Qed.
Lemma owed_sum n (g : gen mst) : owed Z.add 0 (fun d => sum_under n [d]) g = sum_under n (pending g).
Proof.
  induction g as [|e|f IH|ms k IH] using gen_ind'; try reflexivity.
  cbn [owed pending]. rewrite total_sum, IH, sum_under_app. reflexivity.
Qed.
Lemma sumA_sum n (gs : list (gen mst)) :
  sumA Z.add 0 (owed Z.add 0 (fun d => sum_under n [d])) gs = sum_under n (flat_map pending gs).
Proof.
  induction gs as [|g gs IH]; [reflexivity|]. cbn [sumA fold_right flat_map].
  change (fold_right _ 0 gs) with (sumA Z.add 0 (owed Z.add 0 (fun d => sum_under n [d])) gs).
  rewrite IH, sum_under_app, owed_sum. reflexivity.
Qed.
End sums.

Section sli.
Context `{NN : Num} (E : env) (plugins : list factory).
Notation C := (mp_cls E plugins).
Context (config : list (str * gmap str cond)) (key : str) (cs : gmap str cond).
Notation path := (B "stats.SLI." ++ key).
Context (Hf : plugin_table plugins !! B "sli" = Some (FSli config))
        (Hcs : sli_conditions path config ∅ = Ok cs)
        (Hdots : Forall (fun hm => forall l, is_Some (snd hm !! l) -> ~ In c_dot l) config).

(** ** One of the reported quantities *)
Record quantity := Quantity {
  q_part : str;                       (* the last part of the name *)
  q_amount : list sample -> Z;        (* what a list of samples comes to *)
  q_read : sli -> Z }.                (* where it is kept *)
Definition q_name q : str := path ++ c_dot :: q_part q.
Record fair (q : quantity) : Prop := {
  fair_part : ~ In c_dot (q_part q);
  fair_nil : q_amount q [] = 0;
  fair_snoc : forall l x, q_amount q (l ++ [x]) = q_amount q l + q_amount q [x];
  fair_read : forall l x, tallied path cs l x -> q_read q x = q_amount q l;
  fair_sum : forall l x ts w, tallied path cs l x -> sum_under (q_name q) (snd (fst (sli_flush E x ts w))) = q_amount q l }.

Definition q_count := Quantity (B "count") (fun l => Z.of_nat (length l)) sl_count.
Definition q_error := Quantity (B "error") (fun l => Z.of_nat (length (errors l))) sl_error.
Definition q_label (label : str) (c : cond) :=
  Quantity (B "count_" ++ label) (fun l => Z.of_nat (length (passing c l))) (fun x => default 0 (sl_counts x !! label)).

Lemma dots_gen p r : sli_conditions p config ∅ = Ok r -> forall l, is_Some (r !! l) -> ~ In c_dot l.
Proof using Hdots.
  assert (Hgen : forall cfg acc r, Forall (fun hm => forall l, is_Some (snd hm !! l) -> ~ In c_dot l) cfg ->
    (forall l, is_Some (acc !! l) -> ~ In c_dot l) -> sli_conditions p cfg acc = Ok r -> forall l, is_Some (r !! l) -> ~ In c_dot l).
  { induction cfg as [|[h m] cfg IH]; intros acc r0 Hc Ha; cbn [sli_conditions]; [intros [= <-]; exact Ha|].
    apply Forall_cons in Hc as [H1 H2]. cbn [snd] in H1. destruct (fnmatch p h) as [[]|e]; [| |discriminate].
    - apply IH; [exact H2|]. intros l [x Hx]. apply lookup_union_Some_raw in Hx as [Hx|[_ Hx]]; eauto.
    - apply IH; [exact H2|exact Ha]. }
  apply (Hgen config ∅ r Hdots). intros k [x Hx]. rewrite lookup_empty in Hx. discriminate.
Qed.
Lemma undotted_cs : forall l, is_Some (cs !! l) -> ~ In c_dot l.
Proof using Hcs Hdots. exact (dots_gen _ _ Hcs). Qed.

Lemma in_lit c (s : str) : existsb (fun a => Ascii.eqb a c) s = false -> ~ In c s.
Proof.
  intros H Hi. assert (existsb (fun a => Ascii.eqb a c) s = true); [|congruence].
  apply existsb_exists. exists c. split; [exact Hi|]. apply Ascii.eqb_refl.
Qed.
Lemma items_sum n items l ts : items ≡ₚ expected path cs l ts ->
  sum_under n items = fold_right Z.add 0 (map (fun kc => sum_under n [DP (path ++ B ".count_" ++ fst kc) (VI (Z.of_nat (length (passing (snd kc) l)))) ts]) (map_to_list cs)).
Proof.
  intros H. rewrite (sum_under_perm n _ _ H). unfold expected. induction (map_to_list cs) as [|kc q IH]; [reflexivity|].
  cbn [map fold_right]. rewrite <- IH. apply (sum_under_app n [_]).
Qed.
Lemma label_name a : path ++ B ".count_" ++ a = path ++ c_dot :: (B "count_" ++ a). Proof. reflexivity. Qed.
Lemma sum_hit n v ts : sum_under n [DP n (VI v) ts] = v.
Proof. unfold sum_under. cbn [List.filter dp_name]. rewrite str_eqb_refl. cbn. lia. Qed.
Lemma sum_miss n n' v ts : n' <> n -> sum_under n [DP n' v ts] = 0.
Proof. intros H. apply sum_under_none. constructor; [exact H|constructor]. Qed.

Lemma fair_count : fair q_count.
Proof using Hcs Hdots.
  split; cbn [q_part q_amount q_read q_count]; try reflexivity.
  - apply in_lit. reflexivity.
  - intros. rewrite app_length. lia.
  - intros l x (_ & _ & _ & H & _). exact H.
  - intros l x ts w Ht. destruct (flush_items E path cs l x ts w Ht) as (items & -> & Hp).
    rewrite sum_under_app, sum_under_none; unfold q_name; cbn [q_part q_count].
    + unfold totals. change [DP (path ++ B ".count") ?a ?b; ?d] with ([DP (path ++ B ".count") a b] ++ [d]). rewrite sum_under_app.
      change (c_dot :: B "count") with (B ".count"). rewrite sum_hit, sum_miss; [lia|]. intros He. apply app_inv_head in He. discriminate.
    + rewrite Hp. unfold expected. apply List.Forall_map, Forall_forall. intros kc _. cbn [dp_name]. intros He. apply app_inv_head in He. discriminate.
Qed.
Lemma fair_error : fair q_error.
Proof using Hcs Hdots.
  split; cbn [q_part q_amount q_read q_error]; try reflexivity.
  - apply in_lit. reflexivity.
  - intros. rewrite errors_snoc, app_length. lia.
  - intros l x (_ & _ & _ & _ & H). exact H.
  - intros l x ts w Ht. destruct (flush_items E path cs l x ts w Ht) as (items & -> & Hp).
    rewrite sum_under_app, sum_under_none; unfold q_name; cbn [q_part q_error].
    + unfold totals. change [DP (path ++ B ".count") ?a ?b; ?d] with ([DP (path ++ B ".count") a b] ++ [d]). rewrite sum_under_app.
      change (c_dot :: B "error") with (B ".error"). rewrite sum_hit, sum_miss; [lia|]. intros He. apply app_inv_head in He. discriminate.
    + rewrite Hp. unfold expected. apply List.Forall_map, Forall_forall. intros kc _. cbn [dp_name]. intros He. apply app_inv_head in He. discriminate.
Qed.
Lemma fair_label label c : cs !! label = Some c -> fair (q_label label c).
Proof using Hcs Hdots.
  intros Hl. split; cbn [q_part q_amount q_read q_label]; try reflexivity.
  - intros Hi. apply in_app_or in Hi as [Hi|Hi]; [revert Hi; apply in_lit; reflexivity|]. eapply undotted_cs; eauto.
  - intros. rewrite passing_snoc, app_length. lia.
  - intros l x (_ & _ & -> & _). rewrite lookup_fmap, Hl. reflexivity.
  - intros l x ts w Ht. destruct (flush_items E path cs l x ts w Ht) as (items & -> & Hp).
    rewrite sum_under_app, (items_sum _ _ _ _ Hp); unfold q_name; cbn [q_part q_label].
    rewrite (sum_under_none _ (totals _ _ _)); [rewrite Z.add_0_r|].
    + apply elem_of_map_to_list in Hl. pose proof (NoDup_fst_map_to_list cs) as Hn.
      assert (Hmiss : forall kc : str * cond, kc.1 <> label -> sum_under (path ++ c_dot :: B "count_" ++ label)
         [DP (path ++ B ".count_" ++ kc.1) (VI (Z.of_nat (length (passing kc.2 l)))) ts] = 0).
      { intros kc Hk. apply sum_miss. intros He. apply app_inv_head in He. injection He as He. auto. }
      revert Hl Hn. generalize (map_to_list cs). intros q Hl Hn.
      induction q as [|[k d] q IH]; [inversion Hl|]. cbn [map fold_right fst snd] in *. cbn [fmap list_fmap] in Hn. apply NoDup_cons in Hn as [Hn1 Hn2].
      apply elem_of_cons in Hl as [[= <- <-]|Hl].
      * change (B ".count_" ++ label) with (c_dot :: B "count_" ++ label). rewrite sum_hit.
        assert (Hz : fold_right Z.add 0 (map (fun kc : str * cond => sum_under (path ++ c_dot :: B "count_" ++ label)
           [DP (path ++ B ".count_" ++ kc.1) (VI (Z.of_nat (length (passing kc.2 l)))) ts]) q) = 0); [|rewrite Hz; lia].
        assert (Hq : Forall (fun kc : str * cond => kc.1 <> label) q).
        { apply Forall_forall. intros kc Hin He. apply Hn1. rewrite <- He. apply elem_of_list_fmap. exists kc. auto. }
        clear IH Hn1 Hn2. induction Hq as [|kc q Hk _ IH]; [reflexivity|]. cbn [map fold_right]. rewrite IH, (Hmiss kc Hk). reflexivity.
      * rewrite IH by assumption. assert (Hk : (k, d).1 <> label) by (cbn; intros ->; apply Hn1, elem_of_list_fmap; exists (label, c); auto).
        apply Hmiss in Hk. cbn [fst snd] in Hk. rewrite Hk. reflexivity.
    + unfold totals. each; cbn [dp_name]; intros He; apply app_inv_head in He; discriminate.
Qed.

(** ** Every stage of a flush moves it about *)
Section moved.
Context (q : quantity) (Hq : fair q).
Definition plain_labels (p : plug) : Prop :=
  match p with PSli x => forall l, is_Some (sl_conds x !! l) \/ is_Some (sl_counts x !! l) -> ~ In c_dot l | PDist _ => True end.
Record SI (s : mst) : Prop := {
  si_c : forall k, is_Some (p_counter s !! k) -> k <> B "SLI." ++ key ++ c_dot :: q_part q;
  si_m : forall k m, p_meter s !! k = Some m -> me_prefix m = B "stats.meter.";
  si_p : forall k p, p_plug s !! k = Some p -> plug_named k p /\ plain_labels p;
  si_k : forall p, p_plug s !! key = Some p -> exists x l, p = PSli x /\ tallied path cs l x }.
Definition kept_of (s : mst) : Z := match p_plug s !! key with Some (PSli x) => q_read q x | _ => 0 end.
Notation val := (fun d => sum_under (q_name q) [d]).
Notation ok := (okG (S := mst) Z.add 0 SI (fun _ => True) kept_of val).
Notation owd := (owed (S := mst) Z.add 0 val).
Notation tot := (total Z.add 0 val).
Definition good (g : gen mst) : Prop := ok g /\ owd g = 0.
Definition loop_ok (loop : (Z -> gen mst) -> gen mst) : Prop := forall k, (forall n, good (k n)) -> good (loop k).

Lemma same (s s' : mst) : SI s -> p_counter s' = p_counter s -> p_meter s' = p_meter s -> p_plug s' = p_plug s ->
  SI s' /\ kept_of s' = kept_of s.
Proof using Type.
  intros [H1 H2 H3 H4] Hc Hm Hp. split; [split; rewrite ?Hc, ?Hm, ?Hp; assumption|]. unfold kept_of. rewrite Hp. reflexivity.
Qed.
Lemma good_act f : (forall s, SI s -> (SI (fst (f s)) /\ kept_of (fst (f s)) = kept_of s) /\ good (snd (f s))) -> good (GAct f).
Proof using Type.
  intros H. split; [|reflexivity]. cbn [okG]. intros s Hs. specialize (H s Hs).
  destruct (f s) as [s' g']. cbn [fst snd] in H. destruct H as ((H1 & H2) & H3 & H4).
  split; [auto|]. rewrite H4, H2. split; [lia|auto].
Qed.
Ltac easy_same := eapply same; [eassumption|reflexivity..].

Lemma iter_good {X} (xs : list X) u visit k :
  (forall x s, SI s -> match visit x s with
     | (s', Ok (Some (ms, post))) => SI s' /\ kept_of s = kept_of s' + sum_under (q_name q) ms /\
         (forall s2, SI s2 -> SI (fst (post s2)) /\ kept_of (fst (post s2)) = kept_of s2)
     | (s', _) => SI s' /\ kept_of s' = kept_of s
     end) -> (forall n, good (k n)) -> forall n, good (giter xs u visit n k).
Proof using Type.
  intros Hv Hk n.
  apply (okG_giter Z.add 0 Z.add_comm Z.add_assoc Z.add_0_l SI (fun _ => True) kept_of val).
  - intros x s Hs. specialize (Hv x s Hs). destruct (visit x s) as [s' [[[ms post]|]|e]].
    + destruct Hv as (H1 & H2 & H3). rewrite total_sum. split; [exact H1|]. split; [exact H2|]. split; [apply Forall_true; auto|exact H3].
    + destruct Hv; auto.
    + destruct Hv; auto.
  - intros m. destruct (Hk m). auto.
Qed.
Lemma loop_gdict {V} (d : mst -> gmap str V) visit :
  (forall k v s, SI s -> d s !! k = Some v -> match visit k v s with
     | (s', Ok (Some (ms, post))) => SI s' /\ kept_of s = kept_of s' + sum_under (q_name q) ms /\
         (forall s2, SI s2 -> SI (fst (post s2)) /\ kept_of (fst (post s2)) = kept_of s2)
     | (s', _) => SI s' /\ kept_of s' = kept_of s
     end) -> loop_ok (gdict E d visit).
Proof using Type.
  intros Hv k Hk. apply good_act. intros s Hs. unfold gdict.
  destruct (dict_keys E (d s) (p_w s)) as [ks w]. cbn [fst snd]. split; [easy_same|].
  apply iter_good; [|exact Hk]. intros k1 s1 Hs1. destruct (d s1 !! k1) as [v|] eqn:Ev; [|auto]. exact (Hv k1 v s1 Hs1 Ev).
Qed.
Lemma loop_timed loop k : loop_ok loop -> (forall n x, good (k n x)) -> good (timed E loop k).
Proof using Type.
  intros Hl Hk. apply good_act. intros s Hs. unfold now. cbn [fst snd]. split; [easy_same|].
  apply Hl. intros n. apply good_act. intros s1 Hs1. cbn [fst snd]. split; [easy_same|]. apply Hk.
Qed.
Lemma no_post_ok (s2 : mst) : SI s2 -> SI (fst (no_post s2)) /\ kept_of (fst (no_post s2)) = kept_of s2.
Proof using Type. intros H. cbn. auto. Qed.

(** names that are not those of SLI metrics *)
Definition foreign (n : str) : Prop := forall x, n <> B "stats.SLI." ++ x.
Lemma foreign_sum ms : Forall (fun d => foreign (dp_name d)) ms -> sum_under (q_name q) ms = 0.
Proof using Type.
  intros H. apply sum_under_none. eapply Forall_impl; [exact H|]. intros d Hd. unfold q_name. rewrite <- app_assoc. apply Hd.
Qed.
Ltac odd := let x := fresh in let H := fresh in intros x H; discriminate H.

Lemma counter_loop i ts : loop_ok (mp_flush_counter E i ts).
Proof using Type.
  apply loop_gdict. intros k n s Hs Hn.
  assert (Hi : SI (set_counter (<[k := n0]> (p_counter s)) s)).
  { destruct Hs as [H1 H2 H3 H4]. split; cbn; auto. intros k1 Hk. destruct (decide (k = k1)) as [<-|Hne]; [eauto|].
    rewrite lookup_insert_ne in Hk by auto. auto. }
  destruct (i =? 0); [split; [exact Hi|reflexivity]|]. split; [exact Hi|]. split; [|exact no_post_ok].
  rewrite sum_under_none; [unfold kept_of; cbn; lia|]. each; cbn [dp_name].
  - intros He. unfold q_name, stats_prefix in He. change (B "stats.SLI.") with (B "stats." ++ B "SLI.") in He. rewrite <- !app_assoc in He.
    apply app_inv_head in He. revert He. apply (si_c s Hs). eauto.
  - unfold q_name, count_prefix. rewrite <- app_assoc. intros He. discriminate He.
Qed.
Lemma timer_loop percent ts : loop_ok (mp_flush_timer E percent ts).
Proof using Type.
  apply loop_gdict. intros k ds s Hs Hn. destruct ds as [|x ds]; [auto|].
  assert (Hi : SI (set_timer (<[k := []]> (p_timer s)) s) /\ kept_of (set_timer (<[k := []]> (p_timer s)) s) = kept_of s) by easy_same.
  destruct (timer_stats percent (x :: ds)) as [[[[[mean upper] tupper] lower] count]|e]; [|exact Hi].
  destruct Hi as [H1 H2]. split; [exact H1|]. split; [|exact no_post_ok].
  rewrite foreign_sum; [lia|]. unfold timer_prefix. each; cbn [dp_name]; odd.
Qed.
Lemma gauge_loop ts : loop_ok (mp_flush_gauge ts).
Proof using Type.
  intros k Hk. apply good_act. intros s Hs. cbn [fst snd]. split; [auto|]. apply iter_good; [|exact Hk].
  intros [v k1] s1 Hs1. split; [exact Hs1|]. split; [|exact no_post_ok].
  rewrite foreign_sum; [lia|]. unfold gauge_prefix. each; cbn [dp_name]; odd.
Qed.
Lemma meter_loop ts : loop_ok (flush_meter E ts).
Proof using Type.
  apply loop_gdict. intros k m s Hs Hn. pose proof (si_m s Hs k m Hn) as Hp.
  destruct (meter_report_named m ts) as [N1 _]. pose proof (meter_report_items m ts) as N3.
  destruct (meter_report m ts) as [m' r]. cbn [fst snd] in *.
  assert (Hi : SI (set_meter (<[k := m']> (p_meter s)) s)).
  { destruct Hs as [H1 H2 H3 H4]. split; cbn; auto. intros k1 m1 Hk. destruct (decide (k = k1)) as [<-|Hne].
    - rewrite lookup_insert in Hk. injection Hk as <-. congruence.
    - rewrite lookup_insert_ne in Hk by auto. eauto. }
  destruct r as [ms|e]; [|split; [exact Hi|reflexivity]]. split; [exact Hi|]. split; [|exact no_post_ok].
  rewrite foreign_sum; [unfold kept_of; cbn; lia|]. eapply Forall_impl; [exact (N3 ms eq_refl)|].
  intros d (suf & _ & ->). rewrite Hp. odd.
Qed.

Lemma sli_other x ts w k : sl_name x = B "stats.SLI." ++ k -> k <> key -> plain_labels (PSli x) ->
  sum_under (q_name q) (snd (fst (sli_flush E x ts w))) = 0.
Proof using Hq.
  intros Hn Hk Hp. cbn in Hp. pose proof (fair_part q Hq) as Hd. apply sum_under_none. unfold sli_flush.
  pose proof (e_ord_perm E (w_dict w) (map_to_list (sl_counts x)).*1) as Hperm. unfold dict_keys. cbn [fst snd].
  assert (Hne : forall part, ~ In c_dot part -> sl_name x ++ c_dot :: part <> q_name q).
  { intros part Hpart He. unfold q_name in He. apply last_part in He as [He _]; [|assumption..]. rewrite Hn in He.
    apply app_inv_head in He. contradiction. }
  apply Forall_app. split.
  - apply Forall_forall. intros d Hin. apply elem_of_list_In, in_flat_map in Hin as (l & Hl & Hin).
    destruct (sl_counts x !! l) as [n|] eqn:El; [|destruct Hin]. destruct Hin as [<-|[]]. cbn [dp_name].
    change (B ".count_" ++ l) with (c_dot :: B "count_" ++ l). apply Hne. intros Hi.
    apply in_app_or in Hi as [Hi|Hi]; [revert Hi; apply in_lit; reflexivity|]. eapply Hp; eauto.
  - each; cbn [dp_name]; [change (B ".count") with (c_dot :: B "count")|change (B ".error") with (c_dot :: B "error")];
      apply Hne, in_lit; reflexivity.
Qed.
Lemma sli_flush_clear x ts w : fst (fst (sli_flush E x ts w)) = sli_clear x.
Proof using Type. unfold sli_flush. destruct (dict_keys E (sl_counts x) w). reflexivity. Qed.
Lemma clear_labels x : plain_labels (PSli x) -> plain_labels (PSli (sli_clear x)).
Proof using Type. intros H l. cbn. rewrite lookup_fmap, fmap_is_Some. intros [Hl|Hl]; apply H; auto. Qed.

Lemma plug_loop ts : loop_ok (flush_plugins E ts).
Proof using Hq.
  apply loop_gdict. intros k p s Hs Hn. destruct (si_p s Hs k p Hn) as [Hp Hl].
  assert (Hx : forall p' r w, plug_flush E p ts (p_w s) = (p', r, w) ->
    SI (set_plug (<[k := p']> (p_plug s)) (set_w w s)) /\
    match r with
    | Ok ms => kept_of s = kept_of (set_plug (<[k := p']> (p_plug s)) (set_w w s)) + sum_under (q_name q) ms
    | Exn _ => kept_of (set_plug (<[k := p']> (p_plug s)) (set_w w s)) = kept_of s
    end).
  { intros p' r w Hr.
    assert (Hi : plug_named k p' /\ plain_labels p' /\ (k = key -> exists x l, p' = PSli x /\ tallied path cs l x) ->
      SI (set_plug (<[k := p']> (p_plug s)) (set_w w s))).
    { intros (I1 & I2 & I3). destruct Hs as [H1 H2 H3 H4]. split; cbn; auto.
      - intros k1 p1. destruct (decide (k = k1)) as [<-|Hne]; [rewrite lookup_insert; intros [= <-]; auto|].
        rewrite lookup_insert_ne by auto. auto.
      - intros p1. destruct (decide (k = key)) as [Hk|Hne]; [subst k; rewrite lookup_insert; intros [= <-]; auto|].
        rewrite lookup_insert_ne by auto. auto. }
    destruct p as [x|d]; cbn [plug_flush] in Hr.
    - pose proof (sli_flush_clear x ts (p_w s)) as Hc. pose proof (sli_flush_named E x ts (p_w s)) as N1.
      pose proof (fun l => fair_sum q Hq l x ts (p_w s)) as Hsum. pose proof (sli_other x ts (p_w s) k Hp) as Hoth.
      destruct (sli_flush E x ts (p_w s)) as [[x' ms] w']. cbn [fst snd] in *. injection Hr as <- <- <-. subst x'.
      split.
      + apply Hi. split; [exact Hp|]. split; [apply clear_labels, Hl|]. intros ->.
        destruct (si_k s Hs _ Hn) as (x0 & l & [= <-] & Ht). exists (sli_clear x), []. split; [reflexivity|]. eapply tallied_clear, Ht.
      + unfold kept_of. cbn. destruct (decide (k = key)) as [->|Hne].
        * rewrite lookup_insert, Hn. destruct (si_k s Hs _ Hn) as (x0 & l & [= <-] & Ht).
          rewrite (Hsum l Ht), (fair_read q Hq l x Ht), (fair_read q Hq [] (sli_clear x)) by (eapply tallied_clear, Ht).
          rewrite (fair_nil q Hq). lia.
        * rewrite lookup_insert_ne by auto. rewrite Hoth by auto. lia.
    - pose proof (dmetric_flush_items E d ts (p_w s)) as N2.
      destruct (dmetric_flush E d ts (p_w s)) as [r' w']. cbn [fst] in N2. injection Hr as <- <- <-.
      assert (Hk : k <> key) by (intros ->; destruct (si_k s Hs _ Hn) as (x0 & l & [=] & _)).
      split; [apply Hi; split; [exact Hp|]; split; [exact Hl|]; intros ->; destruct (Hk eq_refl)|].
      assert (Hkeep : kept_of (set_plug (<[k := PDist d]> (p_plug s)) (set_w w' s)) = kept_of s)
        by (unfold kept_of; cbn; rewrite lookup_insert_ne by auto; reflexivity).
      destruct r' as [ms|e]; [|exact Hkeep]. rewrite Hkeep, foreign_sum; [lia|].
      eapply Forall_impl; [exact (N2 ms eq_refl)|]. destruct Hp as (P1 & _). intros d0 (suf & _ & ->). rewrite P1. odd. }
  destruct (plug_flush E p ts (p_w s)) as [[p' r] w]. destruct (Hx p' r w eq_refl) as [H1 H2].
  destruct r as [ms|e]; [|split; assumption]. split; [exact H1|]. split; [exact H2|exact no_post_ok].
Qed.

Lemma summary_good n per ts : good (flush_summary E C n per ts).
Proof using Type.
  assert (Hact : good (GAct (fun s : mst =>
     let '(names, w) := dict_keys E (list_to_map per : gmap str (Z * num)) (p_w s) in
     (set_lfd n0 (set_w w s),
      giter names (fun _ => true)
        (fun name s' => match (list_to_map per : gmap str (Z * num)) !! name with
                        | Some (ev, du) => summary_kind C ts name ev du s'
                        | None => (s', Ok None)
                        end) 0
        (fun _ => GAct (fun s1 =>
           (set_lpd n0 s1,
            gdict E p_ptime (summary_type C ts)
              (fun _ => GAct (fun s2 => (set_btype ∅ (set_ptime ∅ s2), GRet)))))))))).
  { apply good_act. intros s Hs. destruct (dict_keys E _ (p_w s)) as [names w]. cbn [fst snd]. split; [easy_same|].
    apply iter_good.
    - intros name s1 Hs1. destruct ((list_to_map per : gmap str (Z * num)) !! name) as [[ev du]|]; [|auto].
      cbn [summary_kind mp_cls c_internal]. split; [exact Hs1|]. split.
      + rewrite foreign_sum; [lia|]. each; cbn [dp_name]; odd.
      + intros s2 Hs2. cbn [fst]. easy_same.
    - intros m. apply good_act. intros s1 Hs1. cbn [fst snd]. split; [easy_same|]. apply loop_gdict.
      + intros t du s2 Hs2 Ht. unfold summary_type. destruct (p_btype s2 !! t) as [c|]; [|auto]. cbn [mp_cls c_internal].
        split; [exact Hs2|]. split.
        * rewrite foreign_sum; [lia|]. each; cbn [dp_name]; odd.
        * intros s3 Hs3. destruct (p_btype s3 !! t); cbn [fst]; [|auto]. easy_same.
      + intros _. apply good_act. intros s2 Hs2. cbn [fst snd]. split; [easy_same|split; [exact I|reflexivity]]. }
  destruct Hact as [H1 H2]. split.
  - cbn [flush_summary]. split; [each; exact I|]. exact H1.
  - cbn [flush_summary owed]. rewrite total_sum, foreign_sum; [reflexivity|]. cbn [mp_cls c_internal]. each; cbn [dp_name]; odd.
Qed.
Theorem flush_good i p : good (flush E C i p).
Proof using Hq.
  apply good_act. intros s Hs. unfold now. cbn [fst snd]. split; [easy_same|].
  destruct (ntrunc _) as [ts|e]; [|split; [exact I|reflexivity]].
  cbn [mp_cls c_flush_counter c_flush_timer c_flush_gauge c_flush_meter].
  apply loop_timed; [apply counter_loop|intros]. apply loop_timed; [apply timer_loop|intros].
  apply loop_timed; [apply gauge_loop|intros]. apply loop_timed; [apply meter_loop|intros].
  apply loop_timed; [apply plug_loop|intros]. apply summary_good.
Qed.
End moved.

(** ** Receiving *)
Definition sampled (m : str) : option sample :=
  match decode m with
  | Some (t, raw, fields) => if str_eqb t (B "sli") && str_eqb (normalize_key raw) key then sample_of fields else None
  | None => None
  end.
Lemma sampled_iff m x : sampled m = Some x <-> sli_line key m x.
Proof using Type.
  unfold sampled. split.
  - destruct (decode m) as [[[t raw] fields]|] eqn:Hd; [|discriminate].
    destruct (str_eqb t (B "sli") && str_eqb (normalize_key raw) key) eqn:Eb; [|discriminate].
    apply andb_true_iff in Eb as [E1 E2]. apply str_eqb_eq in E1, E2. subst t. intros Hx.
    econstructor; [apply typed_line_decode; eauto|]. apply sample_of_iff. exact Hx.
  - intros [m' fields x' Ht Hr]. apply typed_line_decode in Ht as (raw & -> & Hn). rewrite Hn, !str_eqb_refl. apply sample_of_iff. exact Hr.
Qed.

Lemma sli_type : factory_type (FSli config) = B "sli". Proof using Type. reflexivity. Qed.
Lemma table_type t f : plugin_table plugins !! t = Some f -> factory_type f = t.
Proof using Type.
  unfold plugin_table.
  assert (Hg : forall l (m : gmap str factory), (forall t f, m !! t = Some f -> factory_type f = t) ->
     forall t f, fold_left (fun m f => <[factory_type f := f]> m) l m !! t = Some f -> factory_type f = t).
  { induction l as [|f0 l IH]; intros m Hm t0 f1; cbn [fold_left]; [apply Hm|].
    apply IH. intros t1 f2. destruct (decide (factory_type f0 = t1)) as [<-|Hne].
    - rewrite lookup_insert. intros [= <-]. reflexivity.
    - rewrite lookup_insert_ne by auto. apply Hm. }
  apply Hg. intros ? ? H. rewrite lookup_empty in H. discriminate.
Qed.

(** the metric of the name: made by its first sli line, then given every further one *)
Definition metric_after (m : str) (p : option plug) : option plug :=
  match decode m with
  | Some (t, raw, fields) =>
      if str_eqb t (B "sli") && str_eqb (normalize_key raw) key then
        match p with
        | Some (PSli x) => Some (PSli (fst (sli_process x fields)))
        | Some p => Some p
        | None => Some (PSli (fst (sli_process (sli_new path cs) fields)))
        end
      else p
  | None => p
  end.
(** no line of another plugin for the name *)
Definition own_type (m : str) : Prop := forall t fields f, typed_line m t key fields -> ~ builtin t -> plugin_table plugins !! t = Some f -> t = B "sli".
Lemma sli_not_builtin : ~ builtin (B "sli").
Proof using Type. intros [H|[H|[H|H]]]; discriminate H. Qed.
Lemma metric_receive m (s : mst) : own_type m -> (forall p, p_plug s !! key = Some p -> exists x, p = PSli x) ->
  p_plug (receive E plugins m s) !! key = metric_after m (p_plug s !! key).
Proof using Hf Hcs.
  intros Ho Hk. unfold metric_after. destruct (decode m) as [[[t raw] fields]|] eqn:Hd.
  2:{ unfold receive. rewrite process_proj by apply proj_plug. rewrite Hd. reflexivity. }
  destruct (str_eqb t (B "sli") && str_eqb (normalize_key raw) key) eqn:Eb.
  - apply andb_true_iff in Eb as [E1 E2]. apply str_eqb_eq in E1, E2. subst t.
    pose proof (plug_one E plugins m (B "sli") raw fields s (FSli config) Hd sli_not_builtin Hf) as H. cbn zeta in H. rewrite E2 in H. rewrite H.
    destruct (p_plug s !! key) as [p|].
    + destruct (Hk p eq_refl) as [x ->]. cbn [plug_process]. destruct (sli_process x fields). reflexivity.
    + cbn [build_metric factory_name]. change (sli_path (B "stats." ++ B "SLI") key) with path. rewrite Hcs. cbn [plug_process].
      destruct (sli_process (sli_new path cs) fields). reflexivity.
  - destruct (p_plug (receive E plugins m s) !! key) as [p|] eqn:Ep.
    + apply plug_receive in Ep as [Ep|(t' & raw' & fields' & f & Hd' & Hk' & Hb & Hft & _)]; [congruence|].
      rewrite Hd in Hd'. injection Hd' as <- <- <-. exfalso.
      assert (t = B "sli") as ->.
      { apply (Ho t fields f); [|exact Hb|exact Hft]. apply typed_line_decode. exists raw. auto. }
      rewrite <- Hk', !str_eqb_refl in Eb. discriminate.
    + destruct (p_plug s !! key) as [p|] eqn:Es; [|reflexivity]. exfalso.
      destruct (str_eqb (normalize_key raw) key) eqn:E2.
      2:{ apply str_eqb_neq in E2. rewrite (plug_step E plugins m t raw fields s key Hd) in Ep by auto. congruence. }
      apply str_eqb_eq in E2.
      assert (Hl : typed_line m t key fields) by (apply typed_line_decode; eauto).
      destruct (str_eqb t (B "c") || str_eqb t (B "ms") || str_eqb t (B "g") || str_eqb t (B "m")) eqn:Eb'.
      * apply builtin_bool in Eb'. destruct (isolation E plugins m t key fields s Hl) as (_ & _ & _ & _ & Hi).
        rewrite Hi in Ep by auto. congruence.
      * assert (Hb : ~ builtin t) by (rewrite builtin_bool, Eb'; discriminate).
        destruct (plugin_table plugins !! t) as [f|] eqn:Hft.
        -- destruct (plug_first_use E plugins m t key fields s p Hl Hb (ex_intro _ f Hft) Es) as (p' & Hp' & _). congruence.
        -- unfold receive in Ep. rewrite process_proj in Ep by apply proj_plug. rewrite Hd in Ep.
           assert (known_type C t = false) as Hkt.
           { unfold known_type. rewrite Eb'. cbn [c_plugins mp_cls]. rewrite Hft. reflexivity. }
           rewrite Hkt in Ep. cbn in Ep. congruence.
Qed.

Lemma built_labels f pre k w q0 w' : build_metric E f pre k w = (Ok q0, w') -> (forall c, f = FSli c -> c = config) -> plain_labels q0.
Proof using Hdots.
  destruct f as [c|]; cbn [build_metric].
  - intros H Hc. rewrite (Hc c eq_refl) in H. destruct (sli_conditions (sli_path pre k) config ∅) as [r|e] eqn:Er; [|discriminate].
    injection H as <- _. pose proof (dots_gen _ _ Er) as Hg.
    intros l. cbn. rewrite lookup_fmap, fmap_is_Some. intros [Hl|Hl]; apply Hg, Hl.
  - unfold dmetric_new, distinct_new. destruct (draw_tables E 32 w) as [hs w2]. intros [= <- _] _. exact I.
Qed.
Lemma other_plug m (s : mst) k p : (forall k p, p_plug s !! k = Some p -> plug_named k p /\ plain_labels p) ->
  p_plug (receive E plugins m s) !! k = Some p -> plug_named k p /\ plain_labels p.
Proof using Hf Hdots.
  intros Hs Hp.
  assert (Hproc : forall k p fields w, plug_named k p /\ plain_labels p ->
     plug_named k (fst (fst (plug_process E p fields w))) /\ plain_labels (fst (fst (plug_process E p fields w)))).
  { intros k0 p0 fields w [H1 H2]. split; [apply plug_process_named, H1|]. destruct p0 as [x|d]; cbn [plug_process].
    - assert (Hc : sl_conds (fst (sli_process x fields)) = sl_conds x /\ forall l, is_Some (sl_counts (fst (sli_process x fields)) !! l) -> is_Some (sl_counts x !! l)).
      { unfold sli_process. destruct (match fields with [_; _; f] => _ | _ => _ end) as [z|e]; [|auto].
        destruct fields as [|f rest]; [auto|]. destruct (str_eqb f (B "error")); [cbn; auto|].
        destruct (float_of f) as [v|]; [|auto]. cbn [fst sli_update sl_conds sl_counts]. split; [reflexivity|].
        intros l. rewrite map_lookup_imap. destruct (sl_counts x !! l); cbn; eauto. }
      destruct (sli_process x fields) as [x' r]. cbn [fst] in *. destruct Hc as [C1 C2].
      cbn in H2 |- *. intros l. rewrite C1. intros [Hl|Hl]; apply H2; auto.
    - destruct (dmetric_process E d fields w) as [[d' r] w']. exact I. }
  apply plug_receive in Hp as [Hp|(t & raw & fields & f & Hd & -> & Hb & Hft & [(p0 & w & Hp & ->)|(q0 & w & w' & _ & Hb' & ->)])].
  - apply Hs, Hp.
  - apply Hproc, Hs, Hp.
  - apply Hproc. split; [eapply build_named; exact Hb'|]. eapply built_labels; [exact Hb'|]. intros c ->.
    pose proof (table_type t _ Hft) as Ht. change (B "sli" = t) in Ht. subst t. rewrite Hf in Hft. injection Hft as Hc. symmetry. exact Hc.
Qed.
Lemma meter_receive m (s : mst) : (forall k me, p_meter s !! k = Some me -> me_prefix me = B "stats.meter.") ->
  forall k me, p_meter (receive E plugins m s) !! k = Some me -> me_prefix me = B "stats.meter.".
Proof using Type.
  intros H k me Hk. rewrite meter_one in Hk. unfold view in Hk.
  destruct (decode m) as [[[t raw] [|f0 fields]]|]; try (eapply H; exact Hk).
  destruct (str_eqb t (B "m") && str_eqb (normalize_key raw) k) eqn:Eb; [|eapply H; exact Hk].
  destruct (float_of f0); [|eapply H; exact Hk].
  apply andb_prop in Eb. destruct Eb as [_ Eb]. apply str_eqb_eq in Eb. subst k.
  destruct (p_meter s !! normalize_key raw) as [m0|] eqn:Em.
  - injection Hk as <-. apply H in Em. exact Em.
  - injection Hk as <-. unfold meter_new, now. cbn. reflexivity.
Qed.

Definition no_counter (part m : str) : Prop := forall fields, ~ typed_line m (B "c") (B "SLI." ++ key ++ c_dot :: part) fields.
Definition amount_of (q : quantity) (m : str) : Z := match sampled m with Some x => q_amount q [x] | None => 0 end.
Lemma si_receive q m s : fair q -> own_type m /\ no_counter (q_part q) m -> SI q s ->
  SI q (receive E plugins m s) /\ kept_of q (receive E plugins m s) = kept_of q s + amount_of q m.
Proof using Hf Hcs Hdots.
  intros Hq [Ho Hn] [H1 H2 H3 H4].
  assert (Hk : forall p, p_plug s !! key = Some p -> exists x, p = PSli x) by (intros p Hp; destruct (H4 p Hp) as (x & _ & -> & _); eauto).
  pose proof (metric_receive m s Ho Hk) as Hm.
  assert (Hafter : (forall p, p_plug (receive E plugins m s) !! key = Some p -> exists x l, p = PSli x /\ tallied path cs l x) /\
    kept_of q (receive E plugins m s) = kept_of q s + amount_of q m).
  { unfold kept_of. rewrite Hm. unfold metric_after, amount_of, sampled.
    destruct (decode m) as [[[t raw] fields]|]; [|split; [exact H4|lia]].
    destruct (str_eqb t (B "sli") && str_eqb (normalize_key raw) key); [|split; [exact H4|lia]].
    assert (Hstep : forall l x, tallied path cs l x -> (exists l', tallied path cs l' (fst (sli_process x fields))) /\
      q_read q (fst (sli_process x fields)) = q_read q x + match sample_of fields with Some y => q_amount q [y] | None => 0 end).
    { intros l x Ht. pose proof (tallied_process path cs l x fields Ht) as Hp. destruct (sample_of fields) as [y|].
      - destruct Hp as [_ Hp]. split; [eauto|]. rewrite (fair_read q Hq _ _ Hp), (fair_read q Hq _ _ Ht). apply (fair_snoc q Hq).
      - destruct Hp as [-> _]. split; [eauto|lia]. }
    destruct (p_plug s !! key) as [[x|d]|] eqn:Ep.
    - destruct (H4 _ eq_refl) as (x0 & l & [= <-] & Ht). destruct (Hstep l x Ht) as [[l' S1] S2]. split; [|exact S2].
      intros p [= <-]. eauto.
    - destruct (Hk _ eq_refl) as [x [=]].
    - destruct (Hstep [] (sli_new path cs) (tallied_new path cs)) as [[l' S1] S2]. split; [intros p [= <-]; eauto|]. rewrite S2.
      rewrite (fair_read q Hq [] (sli_new path cs)) by apply tallied_new. rewrite (fair_nil q Hq). lia. }
  destruct Hafter as [A1 A2]. split; [|exact A2]. split.
  - intros k Hkk. rewrite counter_step in Hkk. unfold counter_view in Hkk.
    destruct (decode m) as [[[t raw] fields]|] eqn:Hd; [|apply H1; exact Hkk].
    destruct (str_eqb t (B "c") && str_eqb (normalize_key raw) k) eqn:Eb; [|apply H1; exact Hkk].
    apply andb_prop in Eb as [E1 E2]. apply str_eqb_eq in E1, E2. subst t k. intros He. apply (Hn fields).
    apply typed_line_decode. exists raw. auto.
  - apply meter_receive, H2.
  - intros k p. apply other_plug, H3.
  - exact A1.
Qed.
Lemma si_init q : SI q mp_init.
Proof using Type.
  split; cbn; try (intros k [x H]; rewrite lookup_empty in H; discriminate); intros; rewrite lookup_empty in *; discriminate.
Qed.

(** ** What is stored is what has arrived since it was last read *)
Definition taken (s s' : mst) : Prop :=
  p_plug s' !! key = p_plug s !! key \/
  exists p x, p_plug s !! key = Some p /\ p_plug s' !! key = Some (match p with PSli _ => PSli x | PDist d => PDist d end) /\
    forall y, p = PSli y -> x = sli_clear y.
Lemma clear_clear x : sli_clear (sli_clear x) = sli_clear x. Proof using Type. reflexivity. Qed.
Lemma taken_trans a b c : taken a b -> taken b c -> taken a c.
Proof using Type.
  intros [H1|(p & x & P1 & P2 & P3)] [H2|(p' & x' & Q1 & Q2 & Q3)].
  - left. congruence.
  - right. exists p', x'. rewrite <- H1. auto.
  - right. exists p, x. rewrite H2. auto.
  - right. rewrite P2 in Q1. injection Q1 as <-. destruct p as [y|d].
    + exists (PSli y), x'. split; [exact P1|]. split; [exact Q2|]. intros y0 [= <-]. rewrite (Q3 x eq_refl), (P3 y eq_refl). reflexivity.
    + exists (PDist d), x. split; [exact P1|]. split; [exact Q2|]. intros y [=].
Qed.
Lemma taken_same (s s' : mst) : p_plug s' = p_plug s -> taken s s'. Proof using Type. intros H. left. rewrite H. reflexivity. Qed.
Lemma flush_taken i p : stepG taken (flush E C i p).
Proof using Type.
  assert (Hr : forall s, taken s s) by (intros s; left; reflexivity).
  apply flush_step; try (exact Hr); try (exact taken_trans); try (intros; apply taken_same; reflexivity).
  - intros i' ts. apply gdict_step; [exact Hr|intros; apply taken_same; reflexivity|].
    intros k v s _. destruct (i' =? 0); [apply taken_same; reflexivity|]. split; [apply taken_same; reflexivity|intros; apply Hr].
  - intros p' ts. apply gdict_step; [exact Hr|intros; apply taken_same; reflexivity|].
    intros k v s _. destruct v as [|x v]; [apply Hr|].
    destruct (timer_stats p' (x :: v)) as [[[[[a b] c] d] e]|e]; [|apply taken_same; reflexivity].
    split; [apply taken_same; reflexivity|intros; apply Hr].
  - intros ts k Hk s. cbn [fst snd]. split; [apply Hr|]. apply giter_step; [exact Hr| |exact Hk].
    intros [v k1] s1. split; [apply Hr|intros; apply Hr].
  - intros ts. apply gdict_step; [exact Hr|intros; apply taken_same; reflexivity|].
    intros k m s _. destruct (meter_report m ts) as [m' [ms|e]]; [|apply taken_same; reflexivity].
    split; [apply taken_same; reflexivity|intros; apply Hr].
  - intros ts. apply gdict_step; [exact Hr|intros; apply taken_same; reflexivity|].
    intros k p' s Hp'.
    assert (Hx : forall p2 r w, plug_flush E p' ts (p_w s) = (p2, r, w) -> taken s (set_plug (<[k := p2]> (p_plug s)) (set_w w s))).
    { intros p2 r w Hfl. destruct (decide (k = key)) as [->|Hne]; [|left; cbn; rewrite lookup_insert_ne by auto; reflexivity].
      right. destruct p' as [x|d]; cbn [plug_flush] in Hfl.
      - pose proof (sli_flush_clear x ts (p_w s)) as Hc. destruct (sli_flush E x ts (p_w s)) as [[x' l] w']. cbn [fst] in Hc. injection Hfl as <- _ <-.
        exists (PSli x), x'. split; [exact Hp'|]. cbn. rewrite lookup_insert. split; [reflexivity|]. intros y [= <-]. exact Hc.
      - destruct (dmetric_flush E d ts (p_w s)) as [r' w']. injection Hfl as <- _ <-.
        exists (PDist d), (sli_new [] ∅). split; [exact Hp'|]. cbn. rewrite lookup_insert. split; [reflexivity|]. intros y [=]. }
    destruct (plug_flush E p' ts (p_w s)) as [[p2 r] w]. specialize (Hx p2 r w eq_refl).
    destruct r as [ms|e]; [|exact Hx]. split; [exact Hx|intros; apply Hr].
Qed.

(** the samples among the lines *)
Definition all_samples (ms : list str) : list sample := omap sampled ms.
Lemma all_samples_picks ms : picks (sli_line key) ms (all_samples ms).
Proof using Type.
  induction ms as [|m ms IH]; [constructor|]. unfold all_samples. cbn [omap list_omap]. destruct (sampled m) as [x|] eqn:Es.
  - apply picks_hit; [apply sampled_iff, Es|exact IH].
  - apply picks_miss; [|exact IH]. intros x Hx. apply sampled_iff in Hx. congruence.
Qed.
Definition stored_samples (h : list str) (s : mst) : Prop :=
  exists old kept, all_samples h = old ++ kept /\
    match p_plug s !! key with
    | Some (PSli x) => tallied path cs kept x
    | Some (PDist _) => False
    | None => old = [] /\ kept = []
    end.
Lemma samples_kept es : Forall own_type (lines es) -> stored_samples (lines es) (y_st (sys_run E plugins es sys_init)).
Proof using Hf Hcs.
  intros Ho. apply (kept_run E plugins taken (fun s => or_introl eq_refl) taken_trans stored_samples own_type); [exact flush_taken| | | |exact Ho].
  - intros h m s Hm (old & kept & H1 & H2).
    assert (Hk : forall p, p_plug s !! key = Some p -> exists x, p = PSli x) by (intros p Hp; rewrite Hp in H2; destruct p; [eauto|destruct H2]).
    unfold stored_samples. rewrite (metric_receive m s Hm Hk). unfold metric_after.
    assert (Ha : all_samples (h ++ [m]) = all_samples h ++ match sampled m with Some x => [x] | None => [] end).
    { unfold all_samples. rewrite omap_app. cbn. destruct (sampled m); reflexivity. }
    rewrite Ha, H1. unfold sampled. destruct (decode m) as [[[t raw] fields]|].
    2:{ exists old, kept. rewrite app_nil_r. auto. }
    destruct (str_eqb t (B "sli") && str_eqb (normalize_key raw) key).
    2:{ exists old, kept. rewrite app_nil_r. auto. }
    destruct (p_plug s !! key) as [[x|d]|].
    + pose proof (tallied_process path cs kept x fields H2) as Hp. destruct (sample_of fields) as [y|].
      * destruct Hp as [_ Hp]. exists old, (kept ++ [y]). rewrite <- app_assoc. auto.
      * destruct Hp as [-> _]. exists old, kept. rewrite app_nil_r. auto.
    + destruct H2.
    + destruct H2 as [-> ->]. pose proof (tallied_process path cs [] _ fields (tallied_new path cs)) as Hp. destruct (sample_of fields) as [y|].
      * destruct Hp as [_ Hp]. exists [], [y]. auto.
      * destruct Hp as [-> _]. exists [], []. split; [reflexivity|]. apply tallied_new.
  - intros h s s' (old & kept & H1 & H2) [Ht|(p & x & P1 & P2 & P3)]; unfold stored_samples.
    + rewrite Ht. exists old, kept. auto.
    + rewrite P1 in H2. rewrite P2. destruct p as [y|d]; [|destruct H2]. rewrite (P3 y eq_refl).
      exists (old ++ kept), []. rewrite app_nil_r. split; [exact H1|]. eapply tallied_clear, H2.
  - exists [], []. split; [reflexivity|]. cbn. rewrite lookup_empty. auto.
Qed.

(** ** Conservation *)
Definition came_to (y : sys) (part : str) : Z :=
  sum_under (path ++ c_dot :: part) (y_out y ++ flat_map pending (y_live y ++ y_gone y)).
Lemma amount_app q l k : fair q -> q_amount q (l ++ k) = q_amount q l + q_amount q k.
Proof using Type.
  intros Hq. induction k as [|x k IH] using rev_ind; [rewrite app_nil_r, (fair_nil q Hq); lia|].
  rewrite app_assoc, !(fair_snoc q Hq), IH. lia.
Qed.
Lemma amount_sum q ms : fair q -> sumA Z.add 0 (amount_of q) ms = q_amount q (all_samples ms).
Proof using Type.
  intros Hq. induction ms as [|m ms IH]; [symmetry; apply (fair_nil q Hq)|]. cbn [sumA fold_right].
  change (fold_right _ 0 ms) with (sumA Z.add 0 (amount_of q) ms). rewrite IH. unfold amount_of, all_samples. cbn [omap list_omap].
  destruct (sampled m) as [x|]; [|lia]. rewrite <- (amount_app q [x] _ Hq). reflexivity.
Qed.
Lemma sli_moved q es : fair q -> Forall (fun m => own_type m /\ no_counter (q_part q) m) (lines es) ->
  let y := sys_run E plugins es sys_init in
  kept_of q (y_st y) + came_to y (q_part q) = q_amount q (all_samples (lines es)).
Proof using Hf Hcs Hdots.
  intros Hq Hm y.
  destruct (moved_ok E plugins Z.add 0 Z.add_comm Z.add_assoc Z.add_0_l (SI q) (fun _ => True) (kept_of q)
    (fun d => sum_under (q_name q) [d]) (amount_of q) (fun m => own_type m /\ no_counter (q_part q) m) (fun _ => True)
    (fun i p _ => flush_good q Hq i p) (fun m s Hx Hs => si_receive q m s Hq Hx Hs) es sys_init) as [_ Hb].
  - apply Forall_true. auto.
  - exact Hm.
  - split; [apply si_init|]. split; constructor.
  - fold y in Hb. unfold bal in Hb. rewrite !sumA_sum, !total_sum, (amount_sum q _ Hq) in Hb. cbn [sys_init y_st y_live y_gone y_out] in Hb.
    unfold kept_of at 2 in Hb. cbn [mp_init empty_state p_plug] in Hb. rewrite lookup_empty in Hb. cbn in Hb.
    unfold came_to. rewrite flat_map_app, !sum_under_app. unfold q_name in Hb. lia.
Qed.
Theorem sli_conserved es : Forall own_type (lines es) ->
  let y := sys_run E plugins es sys_init in
  exists accepted old kept, picks (sli_line key) (lines es) accepted /\ accepted = old ++ kept /\
    match p_plug (y_st y) !! key with
    | Some (PSli x) => tallied path cs kept x
    | Some (PDist _) => False
    | None => accepted = []
    end /\
    (Forall (no_counter (B "count")) (lines es) -> came_to y (B "count") = Z.of_nat (length old)) /\
    (Forall (no_counter (B "error")) (lines es) -> came_to y (B "error") = Z.of_nat (length (errors old))) /\
    (forall label c, cs !! label = Some c -> Forall (no_counter (B "count_" ++ label)) (lines es) ->
       came_to y (B "count_" ++ label) = Z.of_nat (length (passing c old))).
Proof using Hf Hcs Hdots.
  intros Ho y. destruct (samples_kept es Ho) as (old & kept & H1 & H2). fold y in H2.
  assert (Hall : forall q, fair q -> Forall (no_counter (q_part q)) (lines es) -> came_to y (q_part q) = q_amount q old).
  { intros q Hq Hn. pose proof (sli_moved q es Hq) as Hm. cbv zeta in Hm. fold y in Hm. rewrite H1, (amount_app q _ _ Hq) in Hm.
    assert (Hkept : kept_of q (y_st y) = q_amount q kept).
    { unfold kept_of. destruct (p_plug (y_st y) !! key) as [[x|d]|]; [apply (fair_read q Hq), H2|destruct H2|].
      destruct H2 as [_ ->]. symmetry. apply (fair_nil q Hq). }
    rewrite Hkept in Hm. cut (q_amount q kept + came_to y (q_part q) = q_amount q old + q_amount q kept); [lia|]. apply Hm.
    apply Forall_and. split; assumption. }
  exists (all_samples (lines es)), old, kept. split; [apply all_samples_picks|]. split; [exact H1|]. split.
  { destruct (p_plug (y_st y) !! key) as [[x|d]|]; [exact H2|destruct H2|]. destruct H2 as [-> ->]. exact H1. }
  split; [exact (Hall q_count fair_count)|]. split; [exact (Hall q_error fair_error)|].
  intros label c Hl. exact (Hall (q_label label c) (fair_label label c Hl)).
Qed.
End sli.
