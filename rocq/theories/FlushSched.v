(** One flush among any number of others and of lines arriving: what it has reported when it
    has come to its end. *)
From Verif Require Import Base StrFacts Num Env Stats Glob Metrics Gen GenFacts Processor
  LineSpec LineFacts FloatFacts ProcFacts ProcSpec ReceiveFacts ReceiveFacts2 ReceiveFacts3 PlugFacts
  Sched FlushInv FlushOk SchedFacts StepFacts HistFacts FlushRun FlushStages TimerFacts FlushSpec.

(** ** What the theorems speak about *)
Section spec.
Context `{NN : Num} (E : env) (plugins : list factory).
(** what becomes of a flush *)
Inductive fate := Under_way (i : nat) | Completed | Broken (e : exn) | Abandoned.
(** what the flush that is [i]-th of the unfinished ones sends while [es] happens, and what
    becomes of it *)
Fixpoint follow (es : list event) (y : sys) (i : nat) : list dp * fate :=
  match es with
  | [] => ([], Under_way i)
  | e :: es =>
      let on j := follow es (sys_step E plugins y e) j in
      let past j := if (j <? i)%nat then (i - 1)%nat else i in
      match e with
      | Resume j =>
          match y_live y !! j with
          | None => on i
          | Some g =>
              match snd (gnext g (y_st y)) with
              | Yielded d _ => if (j =? i)%nat then let '(l, f) := on i in (d :: l, f) else on i
              | Finished => if (j =? i)%nat then ([], Completed) else on (past j)
              | Raised x => if (j =? i)%nat then ([], Broken x) else on (past j)
              end
          end
      | Drop j => match y_live y !! j with
                  | None => on i
                  | Some _ => if (j =? i)%nat then ([], Abandoned) else on (past j)
                  end
      | _ => on i
      end
  end.
(** between two moments every entry of a table is taken up once, as it then is, and no entry
    is added *)
Definition taken {V : Type} (table : mst -> gmap str V) (at_ : nat -> mst) (from to : nat) (report : str -> V -> list dp -> Prop)
    (groups : list (list dp)) : Prop :=
  (from <= to)%nat /\ dom (table (at_ to)) = dom (table (at_ from)) /\
  exists ks, ks ≡ₚ (map_to_list (table (at_ from))).*1 /\
    Forall2 (fun k l => exists n v, (from <= n <= to)%nat /\ table (at_ n) !! k = Some v /\ report k v l) ks groups.
(** the five datapoints of a timer that has durations *)
Definition timer_report (percent ts : Z) (k : str) (v : list num) (l : list dp) : Prop :=
  (v = [] /\ l = []) \/
  exists mean upper tupper lower, timer_stats percent v = Ok (mean, upper, tupper, lower, Z.of_nat (length v)) /\ v <> [] /\
    l = [DP (B "stats.timers." ++ k ++ B ".count") (VI (Z.of_nat (length v))) ts;
         DP (B "stats.timers." ++ k ++ B ".lower") (VF lower) ts;
         DP (B "stats.timers." ++ k ++ B ".mean") (VF mean) ts;
         DP (B "stats.timers." ++ k ++ B ".upper") (VF upper) ts;
         DP (B "stats.timers." ++ k ++ B ".upper_" ++ show_Z percent) (VF tupper) ts].
Definition meter_taken (ts : Z) (k : str) (m : meter) (l : list dp) : Prop := snd (meter_report m ts) = Ok l.
Definition plug_taken (ts : Z) (k : str) (q : plug) (l : list dp) : Prop := exists w q' w', plug_flush E q ts w = (q', Ok l, w').
End spec.
Arguments fate : clear implicits.

(** ** A generator resumed in the states of a trace *)
Section trace.
Context `{NN : Num} (st : nat -> mst) (L : nat).
(** [itv n g s out]: in the step of moment [n], in state [s], the rest of the generator is [g];
    it comes to its end having sent [out] *)
Inductive itv : nat -> gen mst -> mst -> list dp -> Prop :=
| itv_ret n s : itv n GRet s []
| itv_act n f s out : itv n (snd (f s)) (fst (f s)) out -> itv n (GAct f) s out
| itv_nil n k s out : itv n k s out -> itv n (GEmit [] k) s out
| itv_emit n n' d ms k s out : (n < n' < L)%nat -> itv n' (GEmit ms k) (st n') out -> itv n (GEmit (d :: ms) k) s (d :: out).

Lemma act_inv n f s out : itv n (GAct f) s out -> itv n (snd (f s)) (fst (f s)) out.
Proof. intros H. inversion H; subst; assumption. Qed.
Lemma raise_inv n e s out : ~ itv n (GRaise e) s out.
Proof. intros H. inversion H. Qed.
Lemma emit_inv ms : forall n k s out, (n < L)%nat -> itv n (GEmit ms k) s out ->
  exists n' s' out', (n <= n' < L)%nat /\ out = ms ++ out' /\ itv n' k s' out' /\
    ((s' = s /\ n' = n /\ ms = []) \/ s' = st n').
Proof.
  induction ms as [|d ms IH]; intros n k s out Hn H; inversion H; subst.
  - exists n, s, out. split; [lia|]. split; [reflexivity|]. split; [assumption|]. left. auto.
  - destruct (IH n' k (st n') out0 ltac:(lia) ltac:(assumption)) as (n2 & s2 & out2 & H1 & -> & H3 & H4).
    exists n2, s2, out2. split; [lia|]. split; [reflexivity|]. split; [exact H3|]. right. destruct H4 as [(-> & -> & _)|H4]; auto.
Qed.
Lemma gnext_yield n n' g : forall s d g' out, snd (gnext g s) = Yielded d g' -> (n < n' < L)%nat -> itv n' g' (st n') out -> itv n g s (d :: out).
Proof.
  induction g as [|e|f IH|ms k IH] using gen_ind'; intros s d g' out H Hn Hi; cbn [gnext] in H; try discriminate.
  - apply itv_act. specialize (IH s (fst (f s)) d g' out). destruct (f s) as [s1 g1]. cbn [fst snd] in *. auto.
  - destruct ms as [|d0 ms]; [apply itv_nil; eauto|]. cbn in H. injection H as -> <-. eapply itv_emit; eassumption.
Qed.
Lemma gnext_end n g : forall s, snd (gnext g s) = Finished -> itv n g s [].
Proof.
  induction g as [|e|f IH|ms k IH] using gen_ind'; intros s H; cbn [gnext] in H; try discriminate.
  - constructor.
  - apply itv_act. specialize (IH s (fst (f s))). destruct (f s) as [s1 g1]. cbn [fst snd] in *. auto.
  - destruct ms as [|d0 ms]; [apply itv_nil; auto|discriminate].
Qed.

(** *** loops *)
Context (J : nat -> mst -> Prop) (Jst : forall n, (n < L)%nat -> J n (st n)).
Section dict.
Context {V : Type} (d : mst -> gmap str V) (report : str -> V -> option (list dp) -> Prop).
Context (visit : str -> V -> mst -> mst * res (option (list dp * (mst -> mst * res unit)))).
Context (Hmono : forall n n', (n <= n' < L)%nat -> dom (d (st n)) ⊆ dom (d (st n'))).
Context (Hvisit : forall key v n s, J n s -> d s !! key = Some v -> let r := visit key v s in
  J n (fst r) /\ (forall k, k <> key -> d (fst r) !! k = d s !! k) /\ dom (d (fst r)) = dom (d s) /\
  match snd r with
  | Ok (Some (ms, post)) => report key v (Some ms) /\ post = no_post
  | Ok None => report key v None
  | Exn _ => True
  end).
Definition opened (o : option (list dp)) : list dp := match o with Some l => l | None => [] end.
Definition made (gs : list (option (list dp))) : Z := Z.of_nat (length (List.filter (fun o => match o with Some _ => true | None => false end) gs)).
Definition groups_in (n n' : nat) ks gs :=
  Forall2 (fun k o => exists m v, (n <= m <= n')%nat /\ d (st m) !! k = Some v /\ report k v o) ks gs.
Lemma groups_wider n1 n n' ks gs : (n1 <= n)%nat -> groups_in n n' ks gs -> groups_in n1 n' ks gs.
Proof using Type. clear Hvisit Hmono Jst visit J L. intros Hn H. eapply Forall2_impl; [exact H|]. intros k o (m & v & H1 & H2). exists m, v. split; [lia|exact H2]. Qed.
Lemma same_dom n n' : (n <= n' < L)%nat -> size (d (st n')) = size (d (st n)) -> dom (d (st n')) = dom (d (st n)).
Proof using All.
  intros Hn Hs. rewrite <- !size_dom in Hs. symmetry. apply set_eq. intros k. pose proof (Hmono n n' Hn) as Hsub. split; [apply Hsub|].
  intros Hk. destruct (decide (k ∈ dom (d (st n)))) as [|Hno]; [assumption|]. exfalso.
  assert (Hlt : (size (dom (d (st n))) < size (dom (d (st n'))))%nat) by (apply subset_size; split; [exact Hsub|intros Hx; exact (Hno (Hx k Hk))]). lia.
Qed.
Lemma giter_itv n0 k : forall ks n s c out,
  NoDup ks -> (n0 <= n < L)%nat -> J n s ->
  dom (d (st n)) = dom (d (st n0)) -> dom (d s) = dom (d (st n0)) ->
  (forall x, x ∈ ks -> d s !! x = d (st n) !! x /\ x ∈ dom (d (st n0))) ->
  itv n (giter ks (fun s' => size (d s') =? size (d (st n0)))%nat (fun key s' => match d s' !! key with Some v => visit key v s' | None => (s', Ok None) end) c k) s out ->
  exists n' s' gs out', (n <= n' < L)%nat /\ J n' s' /\ dom (d (st n')) = dom (d (st n0)) /\
    out = concat (map opened gs) ++ out' /\ groups_in n n' ks gs /\ itv n' (k (c + made gs)%Z) s' out'.
Proof using Hmono Hvisit Jst.
  induction ks as [|key ks IH]; intros n s c out Hnd Hn Hj Hdn Hds Hag H; cbn [giter] in H; apply act_inv in H.
  - destruct (size (d s) =? size (d (st n0)))%nat; [|exfalso; eapply raise_inv; exact H].
    exists n, s, [], out. cbn [map concat app]. unfold made. cbn. rewrite Z.add_0_r. split; [lia|]. split; [exact Hj|]. split; [exact Hdn|]. split; [reflexivity|]. split; [constructor|exact H].
  - destruct (negb _); [exfalso; eapply raise_inv; exact H|].
    apply NoDup_cons in Hnd as [Hnk Hnd]. destruct (Hag key ltac:(left)) as [Hk Hin].
    rewrite <- Hds in Hin. apply elem_of_dom in Hin as [v Hv]. rewrite Hv in H, Hk.
    pose proof (Hvisit key v n s Hj Hv) as HV. cbv zeta in HV. destruct (visit key v s) as [s1 r]. cbn [fst snd] in HV.
    destruct HV as (V1 & V2 & V3 & V4). rewrite Hds in V3.
    assert (Hag1 : forall x, x ∈ ks -> d s1 !! x = d (st n) !! x /\ x ∈ dom (d (st n0))).
    { intros x Hx. destruct (Hag x ltac:(right; exact Hx)) as [A1 A2]. split; [|exact A2]. rewrite V2; [exact A1|]. intros ->. exact (Hnk Hx). }
    destruct r as [[[ms post]|]|e]; cbn [fst snd] in H.
    + destruct V4 as [V4 ->]. apply emit_inv in H as (n1 & s2 & out1 & E1 & -> & E3 & E4); [|lia].
      apply act_inv in E3. unfold no_post in E3. cbn [fst snd] in E3.
      assert (Hstep : exists n' s' gs out', (n1 <= n' < L)%nat /\ J n' s' /\ dom (d (st n')) = dom (d (st n0)) /\
        out1 = concat (map opened gs) ++ out' /\ groups_in n1 n' ks gs /\ itv n' (k (c + 1 + made gs)%Z) s' out').
      { destruct E4 as [(-> & -> & _)|E4].
        - exact (IH n s1 (c + 1)%Z out1 Hnd Hn V1 Hdn V3 Hag1 E3).
        - subst s2.
          assert (Hsz : dom (d (st n1)) = dom (d (st n0))).
          { apply same_dom; [lia|]. destruct ks as [|k2 ks]; cbn [giter] in E3; apply act_inv in E3.
            - destruct (size (d (st n1)) =? size (d (st n0)))%nat eqn:Eu; [apply Nat.eqb_eq, Eu|exfalso; eapply raise_inv; exact E3].
            - destruct (size (d (st n1)) =? size (d (st n0)))%nat eqn:Eu; [apply Nat.eqb_eq, Eu|exfalso; eapply raise_inv; exact E3]. }
          apply (IH n1 (st n1) (c + 1)%Z out1 Hnd ltac:(lia) (Jst n1 ltac:(lia)) Hsz Hsz); [|exact E3].
          intros x Hx. split; [reflexivity|]. apply (Hag1 x Hx). }
      destruct Hstep as (n' & s' & gs & out' & S1 & S2 & S3 & -> & S5 & S6).
      exists n', s', (Some ms :: gs), out'. split; [lia|]. split; [exact S2|]. split; [exact S3|]. split; [cbn [map concat opened]; rewrite <- app_assoc; reflexivity|].
      split.
      * constructor; [|apply (groups_wider n n1); [lia|exact S5]]. exists n, v. split; [lia|]. auto.
      * unfold made in *. cbn [List.filter length]. rewrite Nat2Z.inj_succ. replace (c + Z.succ _)%Z with (c + 1 + Z.of_nat (length (List.filter (fun o : option (list dp) => match o with Some _ => true | None => false end) gs)))%Z by lia. exact S6.
    + destruct (IH n s1 c out Hnd Hn V1 Hdn V3 Hag1 H) as (n' & s' & gs & out' & S1 & S2 & S3 & -> & S5 & S6).
      exists n', s', (None :: gs), out'. split; [lia|]. split; [exact S2|]. split; [exact S3|]. split; [reflexivity|].
      split; [|exact S6]. constructor; [|exact S5]. exists n, v. split; [lia|]. auto.
    + exfalso. eapply raise_inv. exact H.
Qed.

Lemma gdict_itv E k n s out : (n < L)%nat -> J n s -> d s = d (st n) -> (forall w n1 s1, J n1 s1 -> J n1 (set_w w s1)) -> (forall w s1, d (set_w w s1) = d s1) ->
  itv n (gdict E d visit k) s out ->
  exists n' s' ks gs out', (n <= n' < L)%nat /\ J n' s' /\ dom (d (st n')) = dom (d (st n)) /\
    ks ≡ₚ (map_to_list (d (st n))).*1 /\ groups_in n n' ks gs /\
    out = concat (map opened gs) ++ out' /\ itv n' (k (made gs)) s' out'.
Proof using Hmono Hvisit Jst.
  intros Hn Hj Hd Hw Hdw H. unfold gdict in H. apply act_inv in H. unfold dict_keys in H. cbn [fst snd] in H.
  assert (Hp : e_ord E (w_dict (p_w s)) (map_to_list (d s)).*1 ≡ₚ (map_to_list (d (st n))).*1) by (rewrite e_ord_perm, Hd; reflexivity).
  set (ks := e_ord E (w_dict (p_w s)) (map_to_list (d s)).*1) in *. rewrite Hd in H.
  eapply (giter_itv n k ks n) in H.
  - destruct H as (n' & s' & gs & out' & S1 & S2 & S3 & S4 & S5 & S6). exists n', s', ks, gs, out'. rewrite Z.add_0_l in S6. auto 8.
  - rewrite Hp. apply NoDup_fst_map_to_list.
  - lia.
  - apply Hw, Hj.
  - reflexivity.
  - rewrite Hdw, Hd. reflexivity.
  - intros x Hx. rewrite Hdw, Hd. split; [reflexivity|]. rewrite Hp in Hx. apply elem_of_list_fmap in Hx as ([k1 v] & -> & Hx).
    apply elem_of_map_to_list in Hx. apply elem_of_dom. eauto.
Qed.
End dict.
Lemma giter_each {X} (report : X -> list dp -> Prop) (visit : X -> mst -> mst * res (option (list dp * (mst -> mst * res unit)))) u k :
  (forall x n s, J n s -> exists s' ms post, visit x s = (s', Ok (Some (ms, post))) /\ J n s' /\ report x ms /\
     forall n2 s2, J n2 s2 -> exists s3, post s2 = (s3, Ok tt) /\ J n2 s3) ->
  forall xs n s c out, (n < L)%nat -> J n s -> itv n (giter xs u visit c k) s out ->
  exists n' s' gs out', (n <= n' < L)%nat /\ J n' s' /\ u s' = true /\ out = concat gs ++ out' /\ Forall2 report xs gs /\
    itv n' (k (c + Z.of_nat (length xs))%Z) s' out'.
Proof using Jst.
  intros Hv. induction xs as [|x xs IH]; intros n s c out Hn Hj H; cbn [giter] in H; apply act_inv in H.
  - destruct (u s) eqn:Eu; [|exfalso; eapply raise_inv; exact H]. exists n, s, [], out. cbn [length Z.of_nat]. rewrite Z.add_0_r.
    split; [lia|]. split; [exact Hj|]. split; [exact Eu|]. split; [reflexivity|]. split; [constructor|exact H].
  - destruct (negb (u s)); [exfalso; eapply raise_inv; exact H|].
    destruct (Hv x n s Hj) as (s1 & ms & post & V1 & V2 & V3 & V4). rewrite V1 in H. cbn [fst snd] in H.
    apply emit_inv in H as (n1 & s2 & out1 & E1 & -> & E3 & E4); [|lia].
    assert (Hj2 : J n1 s2) by (destruct E4 as [(-> & -> & _)|E4]; [exact V2|subst s2; apply Jst; lia]).
    apply act_inv in E3. destruct (V4 n1 s2 Hj2) as (s3 & P1 & P2). rewrite P1 in E3. cbn [fst snd] in E3.
    destruct (IH n1 s3 (c + 1)%Z out1 ltac:(lia) P2 E3) as (n' & s' & gs & out' & S1 & S2 & S3 & -> & S5 & S6).
    exists n', s', (ms :: gs), out'. split; [lia|]. split; [exact S2|]. split; [exact S3|]. split; [cbn [concat]; rewrite <- app_assoc; reflexivity|].
    split; [constructor; assumption|]. cbn [length]. rewrite Nat2Z.inj_succ. replace (c + Z.succ _)%Z with (c + 1 + Z.of_nat (length xs))%Z by lia. exact S6.
Qed.
(** everything a generator can send *)
Fixpoint only (Q : dp -> Prop) (g : gen mst) : Prop :=
  match g with
  | GRet | GRaise _ => True
  | GAct f => forall s, only Q (snd (f s))
  | GEmit ms k => Forall Q ms /\ only Q k
  end.
Lemma only_itv Q n g s out : itv n g s out -> only Q g -> Forall Q out.
Proof using Type.
  induction 1; intros Ho; [constructor|auto|apply IHitv, Ho|].
  destruct Ho as [Hm Hk]. apply Forall_cons in Hm as [Hd Hm]. constructor; [exact Hd|]. apply IHitv. split; assumption.
Qed.
End trace.

(** ** One flush of a schedule *)
Lemma itv_shift `{NN : Num} (st : nat -> mst) L n g s out : itv (fun k => st (S k)) L n g s out -> itv st (S L) (S n) g s out.
Proof.
  induction 1; [constructor|constructor; assumption|constructor; assumption|].
  eapply (itv_emit _ _ (S n) (S n')); [lia|assumption].
Qed.
Section follow.
Context `{NN : Num} (E : env) (plugins : list factory).
Notation follow := (follow E plugins).
Notation sys_run := (sys_run E plugins).
Notation sys_step := (sys_step E plugins).
Definition at_moment (y : sys) (es : list event) (n : nat) : mst := y_st (sys_run (firstn n es) y).

Lemma follow_itv es : forall y i g out, y_live y !! i = Some g -> follow es y i = (out, Completed) ->
  exists n, (n < length es)%nat /\ itv (at_moment y es) (length es) n g (at_moment y es n) out.
Proof.
  induction es as [|e es IH]; intros y i g out Hg H; [discriminate|].
  assert (Hon : forall j out, y_live (sys_step y e) !! j = Some g -> follow es (sys_step y e) j = (out, Completed) ->
    exists n, (n < length (e :: es))%nat /\ itv (at_moment y (e :: es)) (length (e :: es)) n g (at_moment y (e :: es) n) out).
  { intros j o Hl Hf. destruct (IH _ _ _ _ Hl Hf) as (n & Hn & Hi). exists (S n). split; [cbn; lia|]. apply itv_shift. exact Hi. }
  assert (Hpast : forall j, j <> i -> y_live (sys_step y e) = delete j (y_live y) -> y_live (sys_step y e) !! (if (j <? i)%nat then (i - 1)%nat else i) = Some g).
  { intros j Hne ->. destruct (j <? i)%nat eqn:Ej.
    - apply Nat.ltb_lt in Ej. rewrite lookup_delete_ge by lia. replace (S (i - 1)) with i by lia. exact Hg.
    - apply Nat.ltb_ge in Ej. rewrite lookup_delete_lt by lia. exact Hg. }
  cbn [FlushSched.follow] in H. destruct e as [m|a b|j|j].
  - apply (Hon i); [exact Hg|exact H].
  - apply (Hon i); [|exact H]. cbn. apply lookup_app_l_Some. exact Hg.
  - destruct (y_live y !! j) as [g1|] eqn:Ej.
    2:{ apply (Hon i); [|exact H]. cbn. rewrite Ej. exact Hg. }
    destruct (gnext g1 (y_st y)) as [s' o] eqn:En. cbn [snd] in H. destruct o as [d g'| |x].
    + destruct (j =? i)%nat eqn:Eij.
      * apply Nat.eqb_eq in Eij. subst j. rewrite Hg in Ej. injection Ej as <-.
        destruct (follow es (sys_step y (Resume i)) i) as [o1 f1] eqn:Ef. injection H as <- ->.
        destruct (IH (sys_step y (Resume i)) i g' o1) as (n & Hn & Hi); [|exact Ef|].
        { cbn. rewrite Hg, En. cbn. apply list_lookup_insert. apply lookup_lt_Some in Hg. exact Hg. }
        exists 0%nat. split; [cbn; lia|]. apply (gnext_yield _ _ 0 (S n) g _ d g'); [|cbn; lia|apply itv_shift; exact Hi].
        unfold at_moment. cbn [firstn Sched.sys_run fold_left]. rewrite En. reflexivity.
      * apply Nat.eqb_neq in Eij. apply (Hon i); [|exact H]. cbn. rewrite Ej, En. cbn. rewrite list_lookup_insert_ne by auto. exact Hg.
    + destruct (j =? i)%nat eqn:Eij.
      * apply Nat.eqb_eq in Eij. subst j. rewrite Hg in Ej. injection Ej as <-. injection H as <-.
        exists 0%nat. split; [cbn; lia|]. apply gnext_end. unfold at_moment. cbn [firstn Sched.sys_run fold_left]. rewrite En. reflexivity.
      * apply Nat.eqb_neq in Eij. apply (Hon _ _ (Hpast j Eij ltac:(cbn; rewrite Ej, En; reflexivity)) H).
    + destruct (j =? i)%nat eqn:Eij; [discriminate|].
      apply Nat.eqb_neq in Eij. apply (Hon _ _ (Hpast j Eij ltac:(cbn; rewrite Ej, En; reflexivity)) H).
  - destruct (y_live y !! j) as [g1|] eqn:Ej.
    2:{ apply (Hon i); [|exact H]. cbn. rewrite Ej. exact Hg. }
    destruct (j =? i)%nat eqn:Eij; [discriminate|].
    apply Nat.eqb_neq in Eij. apply (Hon _ _ (Hpast j Eij ltac:(cbn; rewrite Ej; reflexivity)) H).
Qed.

(** *** nothing disappears *)
Notation any := (fun _ _ : meter => True).
Notation calm_ := (flushed any).
Definition grown (s s' : mst) : Prop :=
  dom (p_counter s) ⊆ dom (p_counter s') /\ dom (p_timer s) ⊆ dom (p_timer s') /\ (exists xs, p_gauge s' = p_gauge s ++ xs) /\
  dom (p_meter s) ⊆ dom (p_meter s') /\ dom (p_plug s) ⊆ dom (p_plug s').
Lemma grown_refl s : grown s s.
Proof. unfold grown. split; [auto|]. split; [auto|]. split; [exists []; rewrite app_nil_r; reflexivity|]. auto. Qed.
Lemma grown_trans a b c : grown a b -> grown b c -> grown a c.
Proof.
  intros (A1 & A2 & [x A3] & A4 & A5) (B1 & B2 & [z B3] & B4 & B5). split; [set_solver|]. split; [set_solver|].
  split; [exists (x ++ z); rewrite B3, A3, app_assoc; reflexivity|]. split; set_solver.
Qed.
Lemma grown_flushed s s' : calm_ s s' -> grown s s'.
Proof.
  intros (H1 & H2 & H3 & H4 & H5 & _). unfold grown. rewrite H1, H2, H3, H4, H5. split; [auto|]. split; [auto|]. split; [exists []; rewrite app_nil_r; reflexivity|]. auto.
Qed.
Lemma grown_receive m s : grown s (receive E plugins m s).
Proof.
  split; [intros k Hk; apply counter_dom; auto|]. split; [intros k Hk; apply timer_dom; auto|].
  split; [|split; [intros k Hk; apply meter_dom; auto|intros k Hk; apply plug_dom; auto]].
  rewrite gauge_one. eexists. reflexivity.
Qed.
Lemma step_grown y e : Forall (stepG calm_) (y_live y) -> grown (y_st y) (y_st (sys_step y e)) /\ Forall (stepG calm_) (y_live (sys_step y e)).
Proof.
  intros Hl. destruct e as [m|i p|i|i]; cbn [Sched.sys_step].
  - split; [apply grown_receive|exact Hl].
  - split; [apply grown_refl|]. cbn [y_live]. apply Forall_app. split; [exact Hl|]. constructor; [apply mp_flush_step; auto|constructor].
  - destruct (y_live y !! i) as [g|] eqn:Hg; [|split; [apply grown_refl|exact Hl]].
    assert (Hgs : stepG calm_ g) by (rewrite Forall_lookup in Hl; eapply Hl; exact Hg).
    destruct (gnext g (y_st y)) as [s' o] eqn:Hn.
    destruct (gnext_step calm_ (flushed_refl any (fun _ => I)) (flushed_trans any (fun _ _ _ _ _ => I)) g _ _ _ Hgs Hn) as [H1 H2].
    destruct o as [d g'| |x]; cbn [y_st y_live]; (split; [apply grown_flushed, H1|]).
    + apply Forall_insert; eauto.
    + apply Forall_delete. exact Hl.
    + apply Forall_delete. exact Hl.
  - destruct (y_live y !! i) as [g|] eqn:Hg; [|split; [apply grown_refl|exact Hl]]. cbn [y_st y_live]. split; [apply grown_refl|]. apply Forall_delete. exact Hl.
Qed.
Lemma run_grown es : forall y, Forall (stepG calm_) (y_live y) -> grown (y_st y) (y_st (sys_run es y)) /\ Forall (stepG calm_) (y_live (sys_run es y)).
Proof.
  induction es as [|e es IH]; intros y Hl; [split; [apply grown_refl|exact Hl]|].
  destruct (step_grown y e Hl) as [H1 H2]. destruct (IH _ H2) as [H3 H4]. split; [eapply grown_trans; eassumption|exact H4].
Qed.
Lemma moments_grown y es n n' : Forall (stepG calm_) (y_live y) -> (n <= n')%nat -> grown (at_moment y es n) (at_moment y es n').
Proof.
  intros Hl Hn. unfold at_moment.
  assert (He : firstn n' es = firstn n es ++ skipn n (firstn n' es)).
  { rewrite <- (firstn_skipn n (firstn n' es)) at 1. rewrite firstn_firstn, Nat.min_l by lia. reflexivity. }
  rewrite He. unfold Sched.sys_run. rewrite fold_left_app. apply run_grown. apply (run_grown (firstn n es) y Hl).
Qed.
End follow.

(** ** What a completed flush has sent *)
Section completed.
Context `{NN : Num} (E : env) (plugins : list factory).
Notation C := (mp_cls E plugins).
Notation any := (fun _ _ : meter => True).

Lemma timer_count p v mean upper tupper lower count : timer_stats p v = Ok (mean, upper, tupper, lower, count) -> count = Z.of_nat (length v).
Proof.
  unfold timer_stats. rewrite nsort_length. destruct (nsort v !! 0%nat); [|discriminate]. destruct (last (nsort v)); [|discriminate].
  destruct (Z.of_nat (length v) >? 1).
  - destruct (trimmed p (Z.of_nat (length v))); [|discriminate]. repeat (match goal with |- context [match ?x with _ => _ end] => destruct x; try discriminate end). intros H. congruence.
  - intros H. congruence.
Qed.
Lemma made_some {X} (gs : list (option (list dp))) (xs : list X) (R : X -> option (list dp) -> Prop) :
  (forall x o, R x o -> o <> None) -> Forall2 R xs gs -> made gs = Z.of_nat (length (map opened gs)).
Proof.
  intros HR H. unfold made. f_equal. rewrite map_length. induction H as [|x o xs gs Hx _ IH]; [reflexivity|].
  destruct o; [|destruct (HR _ _ Hx eq_refl)]. cbn. f_equal. exact IH.
Qed.
Lemma made_nonempty {X} (gs : list (option (list dp))) (xs : list X) (R : X -> option (list dp) -> Prop) :
  (forall x, ~ R x (Some [])) -> Forall2 R xs gs -> made gs = Z.of_nat (length (List.filter nonempty (map opened gs))).
Proof.
  intros HR H. unfold made. f_equal. induction H as [|x o xs gs Hx _ IH]; [reflexivity|].
  destruct o as [[|d l]|]; [destruct (HR _ Hx)| |]; cbn; [f_equal|]; exact IH.
Qed.
Lemma groups_opened {V} (st : nat -> mst) (d : mst -> gmap str V) (report : str -> V -> option (list dp) -> Prop) (report' : str -> V -> list dp -> Prop) n n' ks gs :
  (forall k v o, report k v o -> report' k v (opened o)) -> groups_in st d report n n' ks gs ->
  Forall2 (fun k l => exists m v, (n <= m <= n')%nat /\ d (st m) !! k = Some v /\ report' k v l) ks (map opened gs).
Proof.
  intros Hr H. induction H as [|k o ks gs (m & v & H1 & H2 & H3) _ IH]; cbn [map]; constructor; [|exact IH]. eauto 6.
Qed.

Lemma summary_itv st L n num_stats per ts s out : (n < L)%nat -> NoDup (map fst per) ->
  itv st L n (flush_summary E C num_stats per ts) s out ->
  exists kinds types, kinds ≡ₚ per /\
    out = DP (B "statsd.numStats") (VI num_stats) ts :: flat_map (fun '(name, (c, x)) => summary_lines (B "flush") ts name c x) kinds ++ types /\
    Forall (named (B "statsd.receive.")) types.
Proof.
  intros Hn Hnd H. unfold flush_summary in H. apply emit_inv in H as (n1 & s1 & out1 & H1 & -> & H3 & _); [|exact Hn].
  apply act_inv in H3. unfold dict_keys in H3. cbn [fst snd] in H3.
  set (pm := list_to_map per : gmap str (Z * num)) in *.
  assert (Hp : e_ord E (w_dict (p_w s1)) (map_to_list pm).*1 ≡ₚ map fst per).
  { rewrite e_ord_perm. unfold pm. rewrite map_to_list_to_map by exact Hnd. reflexivity. }
  set (names := e_ord E (w_dict (p_w s1)) (map_to_list pm).*1) in *.
  assert (Hex : exists kinds, names = map fst kinds /\ kinds ≡ₚ per).
  { destruct (Permutation_map_inv fst per Hp) as (kinds & K1 & K2). exists kinds. split; [exact K1|symmetry; exact K2]. }
  destruct Hex as (kinds & Hk & Hkp). rewrite Hk in H3.
  assert (Hpm : forall kv, kv ∈ kinds -> pm !! fst kv = Some (snd kv)).
  { intros [k v] Hin. cbn [fst snd]. unfold pm. apply elem_of_list_to_map_1; [exact Hnd|]. rewrite <- Hkp. exact Hin. }
  exists kinds.
  match type of H3 with itv _ _ _ (giter _ ?u ?v ?c ?k) _ _ => set (visit := v) in *; set (fin := k) in * end.
  assert (Hloop : forall kinds n s c out, (n < L)%nat -> (forall kv, kv ∈ kinds -> pm !! fst kv = Some (snd kv)) ->
    itv st L n (giter (map fst kinds) (fun _ => true) visit c fin) s out ->
    exists n' s' c' out', out = flat_map (fun '(name, (c, x)) => summary_lines (B "flush") ts name c x) kinds ++ out' /\ itv st L n' (fin c') s' out').
  { clear -Hn. induction kinds as [|[k [c0 x]] kinds IH]; intros n2 s2 c out Hn2 Hin H; cbn [map fst giter] in H; apply act_inv in H; cbn [negb] in H.
    - exists n2, s2, c, out. split; [reflexivity|exact H].
    - unfold visit in H at 1. pose proof (Hin (k, (c0, x)) ltac:(left)) as E1. cbn [fst snd] in E1. rewrite E1 in H. unfold summary_kind in H. cbn [fst snd] in H.
      apply emit_inv in H as (n3 & s3 & out3 & A1 & -> & A3 & _); [|exact Hn2]. apply act_inv in A3. cbn [fst snd] in A3.
      destruct (IH n3 _ _ out3 ltac:(lia) ltac:(intros kv Hkv; apply Hin; right; exact Hkv) A3) as (n' & s' & c' & out' & -> & B2).
      exists n', s', c', out'. split; [reflexivity|exact B2]. }
  destruct (Hloop kinds n1 _ _ out1 ltac:(lia) Hpm H3) as (n' & s' & c' & types & -> & Hf).
  exists types. split; [exact Hkp|]. split; [reflexivity|].
  eapply only_itv; [exact Hf|]. unfold fin. intros s2. cbn [fst snd]. intros s3. unfold gdict. destruct (dict_keys E (p_ptime s3) (p_w s3)) as [ks w]. cbn [fst snd].
  generalize 0%Z. clear. induction ks as [|k ks IH]; intros c; cbn [giter only]; intros s.
  - destruct (_ =? _)%nat; cbn; auto.
  - destruct (negb _); [exact I|]. destruct (p_ptime s !! k) as [v|]; [|cbn [snd]; apply IH]. unfold summary_type.
    destruct (p_btype s !! k) as [z|]; cbn [snd only]; [|exact I]. split; [repeat constructor; eexists; reflexivity|].
    intros s1. destruct (p_btype s1 !! k); cbn [snd]; [apply IH|exact I].
Qed.

Section assembled.
Context (st : nat -> mst) (L : nat) (Hgrow : forall n n', (n <= n')%nat -> grown (st n) (st n')).
Notation itv := (itv st L).
Definition agree4 n (s : mst) := p_timer s = p_timer (st n) /\ p_gauge s = p_gauge (st n) /\ p_meter s = p_meter (st n) /\ p_plug s = p_plug (st n).
Definition agree3 n (s : mst) := p_gauge s = p_gauge (st n) /\ p_meter s = p_meter (st n) /\ p_plug s = p_plug (st n).
Definition agree1 n (s : mst) := p_plug s = p_plug (st n).
Ltac other := intros ? ?; apply lookup_insert_ne; congruence.

Lemma flush_itv i p n s out : (n < L)%nat -> 1000 <= i -> s = st n -> itv n (flush E C i p) s out ->
  exists ts a b c d e f cs tm gs ms ps kinds types dc dt dg dm dpl,
    let nc := Z.of_nat (length cs) in
    let nt := Z.of_nat (length (List.filter nonempty tm)) in
    let ng := Z.of_nat (length gs) in
    let nm := Z.of_nat (length ms) in
    let np := Z.of_nat (length ps) in
    (f < L)%nat /\ (c <= d)%nat /\ ntrunc (e_clock E (w_clk (p_w (st a)))) = Ok ts /\
    taken p_counter st a b (fun k v l => l = counter_lines (i / 1000) ts (k, v)) cs /\
    taken p_timer st b c (timer_report p ts) tm /\
    (p_gauge (st c) = gs /\ p_gauge (st d) = gs) /\
    taken p_meter st d e (meter_taken ts) ms /\
    taken p_plug st e f (plug_taken E ts) ps /\
    kinds ≡ₚ [(B "counter", (nc, dc)); (B "timer", (nt, dt)); (B "gauge", (ng, dg));
              (B "meter", (nm, dm)); (B "plugin", (np, dpl))] /\
    Forall (named (B "statsd.receive.")) types /\
    out = concat cs ++ concat tm ++ map (gauge_line ts) gs ++ concat ms ++ concat ps ++
          DP (B "statsd.numStats") (VI (nc + nt + ng + nm + np)) ts ::
          flat_map (fun '(name, (n, x)) => summary_lines (B "flush") ts name n x) kinds ++ types.
Proof using Hgrow.
  intros Hn Hi -> H.
  assert (Hz : (i / 1000 =? 0) = false).
  { apply Z.eqb_neq. pose proof (Z.div_mod i 1000 ltac:(lia)). pose proof (Z.mod_pos_bound i 1000 ltac:(lia)). lia. }
  unfold flush in H. apply act_inv in H. unfold now in H. cbn [fst snd] in H.
  destruct (ntrunc (e_clock E (w_clk (p_w (st n))))) as [ts|x] eqn:Et; [|exfalso; eapply raise_inv; exact H].
  (* counters *)
  unfold timed in H at 1. apply act_inv in H. unfold now in H. cbn [fst snd] in H. cbn [c_flush_counter mp_cls] in H.
  eapply (gdict_itv st L agree4 ltac:(unfold agree4; auto) p_counter (fun k v o => o = Some (counter_lines (i / 1000) ts (k, v)))) in H;
    [|intros a b Hab; apply (Hgrow a b ltac:(lia))| |exact Hn|unfold agree4; auto|reflexivity|unfold agree4; auto|reflexivity].
  2:{ intros key v m s Hj Hv r. unfold r. clear r. rewrite Hz. cbn [fst snd]. split; [exact Hj|]. split; [other|]. split; [cbn; eapply dom_same; eauto|].
      split; reflexivity. }
  destruct H as (b & s1 & ks1 & g1 & out1 & B1 & B2 & B3 & B4 & B5 & -> & H).
  apply act_inv in H. unfold now in H. cbn [fst snd] in H.
  (* timers *)
  unfold timed in H at 1. apply act_inv in H. unfold now in H. cbn [fst snd] in H. cbn [c_flush_timer mp_cls] in H.
  eapply (gdict_itv st L agree3 ltac:(unfold agree3; auto) p_timer
     (fun k v o => match o with None => v = [] | Some l => l <> [] /\ timer_report p ts k v l end)) in H;
    [|intros a' b' Hab; apply (Hgrow a' b' ltac:(lia))| |lia|unfold agree3, agree4 in *; cbn; tauto|destruct B2 as [B2 _]; exact B2|unfold agree3; auto|reflexivity].
  2:{ intros key v m s Hj Hv r. unfold r. clear r. destruct v as [|x v]; [cbn [fst snd]; auto|].
      destruct (timer_stats p (x :: v)) as [[[[[mean upper] tupper] lower] count]|e] eqn:Es; cbn [fst snd]; (split; [exact Hj|]); (split; [other|]);
        (split; [cbn; eapply dom_same; eauto|]); [|exact I].
      split; [|reflexivity]. split; [discriminate|]. right. pose proof (timer_count _ _ _ _ _ _ _ Es) as ->. do 4 eexists. split; [exact Es|]. split; [discriminate|reflexivity]. }
  destruct H as (c & s2 & ks2 & g2 & out2 & C1 & C2 & C3 & C4 & C5 & -> & H).
  apply act_inv in H. unfold now in H. cbn [fst snd] in H.
  (* gauges *)
  unfold timed in H at 1. apply act_inv in H. unfold now in H. cbn [fst snd] in H. cbn [c_flush_gauge mp_cls] in H.
  unfold mp_flush_gauge in H. apply act_inv in H. cbn [fst snd] in H.
  match type of H with context [p_gauge ?t] => assert (Hg : p_gauge t = p_gauge (st c)) by (destruct C2 as [C2 _]; exact C2); rewrite Hg in H; clear Hg end.
  set (gs := p_gauge (st c)) in *.
  eapply (giter_each st L agree3 ltac:(unfold agree3; auto) (fun vk l => l = [gauge_line ts vk])) in H;
    [| |lia|unfold agree3 in *; cbn; tauto].
  2:{ intros [v k] m s Hj. do 3 eexists. split; [reflexivity|]. split; [exact Hj|]. split; [reflexivity|]. intros n2 s2' Hj2. exists s2'. auto. }
  destruct H as (d & s3 & g3 & out3 & D1 & D2 & D3 & -> & D5 & H).
  assert (Hgs : p_gauge (st d) = gs).
  { destruct (Hgrow c d ltac:(lia)) as (_ & _ & [xs Hx] & _). destruct D2 as [D2 _]. rewrite D2 in D3. apply Nat.eqb_eq in D3. rewrite Hx, app_length in D3.
    fold gs in Hx, D3. destruct xs; [rewrite app_nil_r in Hx; exact Hx|cbn in D3; lia]. }
  assert (Hg3 : concat g3 = map (gauge_line ts) gs).
  { clear -D5. induction D5 as [|vk l gs g3 -> _ IH]; [reflexivity|]. cbn. f_equal. exact IH. }
  rewrite Hg3. clear D5 Hg3.
  apply act_inv in H. unfold now in H. cbn [fst snd] in H.
  (* meters *)
  unfold timed in H at 1. apply act_inv in H. unfold now in H. cbn [fst snd] in H. cbn [c_flush_meter mp_cls] in H.
  eapply (gdict_itv st L agree1 ltac:(unfold agree1; auto) p_meter (fun k v o => exists l, o = Some l /\ meter_taken ts k v l)) in H;
    [|intros a' b' Hab; apply (Hgrow a' b' ltac:(lia))| |lia|unfold agree1, agree3 in *; cbn; tauto|destruct D2 as (_ & D2 & _); exact D2|unfold agree1; auto|reflexivity].
  2:{ intros key v m s Hj Hv r. unfold r. clear r. unfold meter_taken. destruct (meter_report v ts) as [m' [l|e]]; cbn [fst snd]; (split; [exact Hj|]); (split; [other|]);
        (split; [cbn; eapply dom_same; eauto|]); [|exact I]. split; [|reflexivity]. exists l. auto. }
  destruct H as (e & s4 & ks4 & g4 & out4 & E1 & E2 & E3 & E4 & E5 & -> & H).
  apply act_inv in H. unfold now in H. cbn [fst snd] in H.
  (* plugins *)
  unfold timed in H at 1. apply act_inv in H. unfold now in H. cbn [fst snd] in H.
  eapply (gdict_itv st L (fun _ _ => True) (fun _ _ => I) p_plug (fun k v o => exists l, o = Some l /\ plug_taken E ts k v l)) in H;
    [|intros a' b' Hab; apply (Hgrow a' b' ltac:(lia))| |lia|exact I|exact E2|auto|reflexivity].
  2:{ intros key v m s Hj Hv r. unfold r. clear r. destruct (plug_flush E v ts (p_w s)) as [[q' [l|e']] w] eqn:Eq; cbn [fst snd]; (split; [exact I|]); (split; [other|]);
        (split; [cbn; eapply dom_same; eauto|]); [|exact I]. split; [|reflexivity]. exists l. split; [reflexivity|]. do 3 eexists. exact Eq. }
  destruct H as (f & s5 & ks5 & g5 & out5 & F1 & _ & F3 & F4 & F5 & -> & H).
  apply act_inv in H. unfold now in H. cbn [fst snd] in H.
  (* the summary *)
  apply summary_itv in H; [|lia|].
  2:{ cbn [map fst]. repeat (constructor; [let Hx := fresh in intros Hx; repeat (apply elem_of_cons in Hx as [Hx|Hx]; [discriminate Hx|]); inversion Hx|]). constructor. }
  destruct H as (kinds & types & K1 & K2 & K3).
  assert (M1 : made g1 = Z.of_nat (length (map opened g1))).
  { eapply made_some; [|exact B5]. intros x o (m & v & _ & _ & ->). discriminate. }
  assert (M2 : made g2 = Z.of_nat (length (List.filter nonempty (map opened g2)))).
  { eapply made_nonempty; [|exact C5]. intros x (m & v & _ & _ & Hx & _). congruence. }
  assert (M4 : made g4 = Z.of_nat (length (map opened g4))).
  { eapply made_some; [|exact E5]. intros x o (m & v & _ & _ & l & -> & _). discriminate. }
  assert (M5 : made g5 = Z.of_nat (length (map opened g5))).
  { eapply made_some; [|exact F5]. intros x o (m & v & _ & _ & l & -> & _). discriminate. }
  rewrite M1, M2, M4, M5, !Z.add_0_l in *.
  exists ts, n, b, c, d, e, f, (map opened g1), (map opened g2), gs, (map opened g4), (map opened g5), kinds, types. do 5 eexists. cbv zeta.
  split; [lia|]. split; [lia|]. split; [exact Et|].
  split. { split; [lia|]. split; [exact B3|]. exists ks1. split; [exact B4|]. eapply groups_opened; [|exact B5]. intros k v o ->. reflexivity. }
  split. { split; [lia|]. split; [exact C3|]. exists ks2. split; [exact C4|]. eapply groups_opened; [|exact C5]. intros k v [l|] Ho; [apply Ho|left; auto]. }
  split; [split; [reflexivity|exact Hgs]|].
  split. { split; [lia|]. split; [exact E3|]. exists ks4. split; [exact E4|]. eapply groups_opened; [|exact E5]. intros k v o (l & -> & Hl). exact Hl. }
  split. { split; [lia|]. split; [exact F3|]. exists ks5. split; [exact F4|]. eapply groups_opened; [|exact F5]. intros k v o (l & -> & Hl). exact Hl. }
  split; [exact K1|]. split; [exact K3|]. rewrite K2. reflexivity.
Qed.
End assembled.
End completed.

(** ** In a schedule *)
Section schedule.
Context `{NN : Num} (E : env) (plugins : list factory).
Notation any := (fun _ _ : meter => True).

Lemma lines_app_events a b : lines (a ++ b) = lines a ++ lines b.
Proof. apply flat_map_app. Qed.
Lemma completed_flush es i p es' out : 1000 <= i ->
  let y := sys_run E plugins (es ++ [Start i p]) sys_init in
  follow E plugins es' y (length (y_live (sys_run E plugins es sys_init))) = (out, Completed) ->
  exists ts a b c d e f cs tm gs ms ps kinds types dc dt dg dm dpl,
    let st := at_moment E plugins y es' in
    let nc := Z.of_nat (length cs) in
    let nt := Z.of_nat (length (List.filter nonempty tm)) in
    let ng := Z.of_nat (length gs) in
    let nm := Z.of_nat (length ms) in
    let np := Z.of_nat (length ps) in
    (f < length es')%nat /\ ntrunc (e_clock E (w_clk (p_w (st a)))) = Ok ts /\
    taken p_counter st a b (fun k v l => l = counter_lines (i / 1000) ts (k, v)) cs /\
    taken p_timer st b c (timer_report p ts) tm /\
    ((c <= d)%nat /\ picks (fun m '(v, key) => gauge_sample m key v) (lines (es ++ firstn c es')) gs /\
     picks (fun m '(v, key) => gauge_sample m key v) (lines (es ++ firstn d es')) gs) /\
    taken p_meter st d e (meter_taken ts) ms /\
    taken p_plug st e f (plug_taken E ts) ps /\
    kinds ≡ₚ [(B "counter", (nc, dc)); (B "timer", (nt, dt)); (B "gauge", (ng, dg));
              (B "meter", (nm, dm)); (B "plugin", (np, dpl))] /\
    Forall (named (B "statsd.receive.")) types /\
    out = concat cs ++ concat tm ++ map (gauge_line ts) gs ++ concat ms ++ concat ps ++
          DP (B "statsd.numStats") (VI (nc + nt + ng + nm + np)) ts ::
          flat_map (fun '(name, (n, x)) => summary_lines (B "flush") ts name n x) kinds ++ types.
Proof.
  intros Hi y H.
  assert (Hy : y = sys_step E plugins (sys_run E plugins es sys_init) (Start i p)) by (unfold y, sys_run; rewrite fold_left_app; reflexivity).
  assert (Hl0 : Forall (stepG (flushed any)) (y_live (sys_run E plugins es sys_init))).
  { destruct (run_grown E plugins es sys_init) as [_ Hl]; [constructor|]. exact Hl. }
  assert (Hl : Forall (stepG (flushed any)) (y_live y)) by (rewrite Hy; apply (step_grown E plugins _ (Start i p) Hl0)).
  apply (follow_itv E plugins es' y _ (flush E (mp_cls E plugins) i p)) in H.
  2:{ rewrite Hy. cbn [sys_step y_live]. rewrite lookup_app_r by lia. rewrite Nat.sub_diag. reflexivity. }
  destruct H as (n & Hn & H).
  apply (flush_itv E plugins (at_moment E plugins y es') (length es')) in H; [|intros; apply moments_grown; assumption|exact Hn|exact Hi|reflexivity].
  destruct H as (ts & a & b & c & d & e & f & cs & tm & gs & ms & ps & kinds & types & dc & dt & dg & dm & dpl & H1 & H2 & H3 & H4 & H5 & (H6 & H6') & H7).
  exists ts, a, b, c, d, e, f, cs, tm, gs, ms, ps, kinds, types, dc, dt, dg, dm, dpl. cbv zeta.
  assert (Hp : forall k, p_gauge (at_moment E plugins y es' k) = gs -> picks (fun m '(v, key) => gauge_sample m key v) (lines (es ++ firstn k es')) gs).
  { intros k Hk. destruct (gauges_kept E plugins (es ++ [Start i p] ++ firstn k es')) as (l & L1 & L2).
    assert (Hr : sys_run E plugins (es ++ [Start i p] ++ firstn k es') sys_init = sys_run E plugins (firstn k es') y).
    { unfold y, sys_run. rewrite app_assoc, fold_left_app. reflexivity. }
    rewrite Hr in L2. unfold at_moment in Hk. rewrite Hk in L2. subst l. rewrite !lines_app_events in L1. rewrite lines_app_events. exact L1. }
  split; [exact H1|]. split; [exact H3|]. split; [exact H4|]. split; [exact H5|]. split; [split; [exact H2|split; apply Hp; assumption]|]. exact H7.
Qed.

Lemma taken_in {V} (table : mst -> gmap str V) st a b report groups k : taken table st a b report groups -> k ∈ dom (table (st a)) ->
  exists n v l, (a <= n <= b)%nat /\ table (st n) !! k = Some v /\ report k v l /\ forall d, In d l -> In d (concat groups).
Proof.
  intros (_ & _ & ks & Hp & H) Hk.
  assert (Hin : In k ks).
  { apply elem_of_list_In. rewrite Hp. apply elem_of_dom in Hk as [v Hv]. apply elem_of_list_fmap. exists (k, v). split; [reflexivity|]. apply elem_of_map_to_list, Hv. }
  clear Hp Hk. induction H as [|k1 l ks groups (n & v & H1 & H2 & H3) _ IH]; [destruct Hin|].
  destruct Hin as [->|Hin].
  - exists n, v, l. split; [exact H1|]. split; [exact H2|]. split; [exact H3|]. intros d Hd. cbn. apply in_or_app. auto.
  - destruct (IH Hin) as (n1 & v1 & l1 & A1 & A2 & A3 & A4). exists n1, v1, l1. split; [exact A1|]. split; [exact A2|]. split; [exact A3|].
    intros d Hd. cbn. apply in_or_app. auto.
Qed.
Lemma counters_known es key m : In m (lines es) -> counter_touch m key -> key ∈ dom (p_counter (y_st (sys_run E plugins es sys_init))).
Proof.
  intros Hm Ht. revert Hm.
  apply (sys_history E plugins any (fun _ => I) (fun _ _ _ _ _ => I) (fun _ _ => I)
    (fun ls s => In m ls -> key ∈ dom (p_counter s))).
  - intros [].
  - intros ls x s IH Hin. apply counter_dom. apply in_app_iff in Hin as [Hin|[->|[]]]; auto.
  - intros ls s s' IH (_ & H2 & _) Hin. rewrite H2. auto.
Qed.
Lemma picks_in {A} (P : str -> A -> Prop) ms l m a : (forall m a b, P m a -> P m b -> a = b) -> picks P ms l -> In m ms -> P m a -> In a l.
Proof.
  intros Hf H. induction H as [|x b ms l Hx _ IH|x ms l Hx _ IH]; [intros []|intros [->|Hin] Ha..].
  - left. eapply Hf; eassumption.
  - right. auto.
  - destruct (Hx _ Ha).
  - auto.
Qed.
(** everything known when it began is among what it sent *)
Lemma none_left_out es i p es' out : 1000 <= i ->
  follow E plugins es' (sys_run E plugins (es ++ [Start i p]) sys_init) (length (y_live (sys_run E plugins es sys_init))) = (out, Completed) ->
  exists ts,
    (forall key m, In m (lines es) -> counter_touch m key ->
       exists v, In (DP (B "stats." ++ key) (VF (ndiv v (nofZ (i / 1000)))) ts) out /\ In (DP (B "stats_counts." ++ key) (VF v) ts) out) /\
    (forall key v m, In m (lines es) -> gauge_sample m key v -> In (DP (B "stats.gauge." ++ key ++ B ".value") (VF v) ts) out).
Proof.
  intros Hi H. destruct (completed_flush es i p es' out Hi H) as (ts & a & b & c & d & e & f & cs & tm & gs & ms & ps & kinds & types & dc & dt & dg & dm & dpl & H1 & H2 & H3 & H4 & (_ & H5 & _) & H6 & H7 & H8 & H9 & ->).
  exists ts. split.
  - intros key m Hm Ht. pose proof (counters_known es key m Hm Ht) as Hk.
    assert (Hka : key ∈ dom (p_counter (at_moment E plugins (sys_run E plugins (es ++ [Start i p]) sys_init) es' a))).
    { assert (Hr : at_moment E plugins (sys_run E plugins (es ++ [Start i p]) sys_init) es' a = y_st (sys_run E plugins ([Start i p] ++ firstn a es') (sys_run E plugins es sys_init))).
      { unfold at_moment, sys_run. rewrite <- !fold_left_app, <- app_assoc. reflexivity. }
      rewrite Hr. destruct (run_grown E plugins es sys_init) as [_ Hl]; [constructor|].
      destruct (run_grown E plugins ([Start i p] ++ firstn a es') _ Hl) as [(Hd & _) _]. apply Hd, Hk. }
    destruct (taken_in _ _ _ _ _ _ key H3 Hka) as (n & v & l & _ & _ & -> & Hin). exists v.
    split; (apply in_or_app; left; apply Hin; cbn; auto).
  - intros key v m Hm Hg. apply in_or_app. right. apply in_or_app. right. apply in_or_app. left.
    apply (in_map (gauge_line ts) gs (v, key)). eapply (picks_in _ _ gs m (v, key)); [|exact H5| |exact Hg].
    + intros m0 [v1 k1] [v2 k2] G1 G2. destruct G1 as (f0 & fs & T1 & R1), G2 as (f0' & fs' & T2 & R2).
      pose proof (typed_line_fun _ _ _ _ _ _ _ T1 T2) as (_ & -> & _). f_equal.
      assert (W1 : view (B "g") m0 k2 = Some v1) by (apply view_iff; exists f0, fs; auto).
      assert (W2 : view (B "g") m0 k2 = Some v2) by (apply view_iff; exists f0', fs'; auto). congruence.
    + rewrite lines_app_events. apply in_or_app. left. exact Hm.
Qed.
End schedule.
