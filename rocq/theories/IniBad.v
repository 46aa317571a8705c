From Verif Require Import Base StrFacts LineSpec LineFacts AssemblySpec Num Process Service Ini IniSpec IniFacts IniRead.
From Coq Require Import Sorting.Sorted.

(** ** texts that are refused *)
Definition neutral (l : str) : Prop := ~ heads l /\ ~ sets l.
Definition inside_from (b : Prop) (pre : list str) : Prop := inside pre \/ (b /\ Forall neutral pre).
Definition stray_from (b : Prop) (ls : list str) (i j : nat) : Prop := exists pre l post, ls = pre ++ l :: post /\ j = (i + length pre)%nat /\
  ~ ignored l /\ ~ heads l /\ ~ sets l /\ ~ ((exists c l', l = c :: l' /\ in_ws c) /\ inside_from b pre).
Lemma inside_cons l pre : inside (l :: pre) <-> inside pre \/ (sets l /\ Forall neutral pre).
Proof.
  split.
  - intros (a & x & b & E & Hx & Hb). destruct a as [|y a]; cbn [app] in E; injection E as -> ->; [right; auto|left]. exists a, x, b. auto.
  - intros [(a & x & b & -> & H)|[H1 H2]]; [exists (l :: a), x, b; auto|]. exists [], l, pre. auto.
Qed.
(** one line more in front *)
Lemma stray_step (b b' : Prop) l ls i j : (forall pre, inside_from b (l :: pre) <-> inside_from b' pre) ->
  (stray_from b (l :: ls) i j <-> (j = i /\ stray_from b [l] i i) \/ stray_from b' ls (S i) j).
Proof.
  intros H. split.
  - intros (pre & x & post & E & -> & H1 & H2 & H3 & H4). destruct pre as [|y pre]; cbn [app] in E; injection E as -> ->.
    + left. split; [cbn; lia|]. exists [], x, []. cbn. repeat (split; [first [reflexivity|assumption|lia]|]). exact H4.
    + right. exists pre, x, post. split; [reflexivity|]. split; [cbn; lia|]. do 3 (split; [assumption|]). rewrite <- H. exact H4.
  - intros [[-> (pre & x & post & E & _ & H1 & H2 & H3 & H4)]|(pre & x & post & -> & -> & H1 & H2 & H3 & H4)].
    + destruct pre as [|y pre]; cbn [app] in E; [injection E as <- <-|injection E as _ E; destruct pre; discriminate].
      exists [], l, ls. split; [reflexivity|]. split; [cbn; lia|]. auto.
    + exists (l :: pre), x, post. split; [reflexivity|]. split; [cbn; lia|]. do 3 (split; [assumption|]). rewrite H. exact H4.
Qed.
Lemma stray_one (b : Prop) l i : stray_from b [l] i i <-> ~ ignored l /\ ~ heads l /\ ~ sets l /\ ~ ((exists c l', l = c :: l' /\ in_ws c) /\ b).
Proof.
  split.
  - intros (pre & x & post & E & _ & H1 & H2 & H3 & H4). destruct pre as [|y pre]; cbn [app] in E; [injection E as <- <-|injection E as _ E; destruct pre; discriminate].
    do 3 (split; [assumption|]). intros [Hc Hb]. apply H4. split; [exact Hc|]. right. split; [exact Hb|constructor].
  - intros (H1 & H2 & H3 & H4). exists [], l, []. split; [reflexivity|]. split; [cbn; lia|]. do 3 (split; [assumption|]). intros [Hc [Hi|[Hb _]]]; [|auto].
    destruct Hi as (a & y & c & E & _). destruct a; discriminate.
Qed.
Lemma inside_neutral b l pre : neutral l -> inside_from b (l :: pre) <-> inside_from b pre.
Proof. intros H. unfold inside_from. rewrite inside_cons, Forall_cons. assert (Hs : ~ sets l) by apply H. revert H Hs. generalize (neutral l), (sets l), (Forall neutral pre), (inside pre). tauto. Qed.
Lemma inside_heads b l pre : heads l -> inside_from b (l :: pre) <-> inside_from False pre.
Proof.
  intros H. unfold inside_from. rewrite inside_cons, Forall_cons. assert (Hs : ~ sets l) by (intros (_ & Hs & _); destruct H as [_ [n H]]; eapply Hs, H).
  assert (Hn : ~ neutral l) by (intros [Hn _]; contradiction). generalize (Forall neutral pre), (inside pre). tauto.
Qed.
Lemma inside_sets b l pre : sets l -> inside_from b (l :: pre) <-> inside_from True pre.
Proof.
  intros H. unfold inside_from. rewrite inside_cons, Forall_cons. 
  assert (Hn : ~ neutral l) by (intros [_ Hn]; contradiction). generalize (Forall neutral pre), (inside pre). tauto.
Qed.
Lemma inside_equiv (b b' : Prop) pre : (b <-> b') -> inside_from b pre <-> inside_from b' pre.
Proof. intros H. unfold inside_from. rewrite H. reflexivity. Qed.
Lemma stray_equiv (b b' : Prop) ls i j : (b <-> b') -> stray_from b ls i j -> stray_from b' ls i j.
Proof. intros H (pre & x & post & H1 & H2 & H3 & H4 & H5 & H6). exists pre, x, post. rewrite <- (inside_equiv b b') by exact H. auto 10. Qed.

Lemma run_set_in_option s o v l : setting l o v -> in_option (run_set s (o, [v])) <-> True.
Proof. intros H. split; [auto|]. intros _. exists o. rewrite run_set_opt. split; [reflexivity|]. eapply setting_name, H. Qed.
Lemma StronglySorted_app_one (a : list nat) i b : StronglySorted lt a -> StronglySorted lt b -> Forall (fun x => (x < i)%nat) a -> Forall (fun x => (i <= x)%nat) b ->
  StronglySorted lt (a ++ b).
Proof.
  induction a as [|x a IH]; [auto|]. intros H1 H2 H3 H4. apply StronglySorted_inv in H1 as [H1 Hx]. apply Forall_cons in H3 as [H3 H5]. cbn. constructor; [auto|].
  apply Forall_app. split; [exact Hx|]. eapply Forall_impl; [exact H4|]. cbn. intros; lia.
Qed.
Lemma read_strays ls : Forall (fun l => ~ In c_nl l) ls -> forall i s, live s ->
  exists s' e, read_lines ls i s = inr s' /\ n_errors s' = n_errors s ++ e /\ StronglySorted lt e /\ Forall (fun j => (i <= j)%nat) e /\
    forall j, In j e <-> stray_from (in_option s) ls i j.
Proof.
  induction 1 as [|l ls Hn Hp IH]; intros i s Hl.
  - exists s, []. split; [reflexivity|]. split; [rewrite app_nil_r; reflexivity|]. do 2 (split; [constructor|]). intros j. split; [intros []|]. intros (pre & x & post & E & _). destruct pre; discriminate.
  - assert (E : read_lines (l :: ls) i s = if skipped l then read_lines ls (S i) s else if continued l s then read_lines ls (S i) (append_value (strip l) s)
        else match match_section l with Some n => read_lines ls (S i) (enter n s) | None =>
          match match_option l with Some (name, v) => read_lines ls (S i) (run_set s (map to_lower (rstrip name), [option_text v]))
          | None => read_lines ls (S i) (Ist (n_defaults s) (n_sections s) (n_place s) (n_opt s) (n_errors s ++ [i])) end end).
    { cbn [read_lines]. destruct (skipped l), (continued l s), (match_section l); try reflexivity. pose proof (live_place _ Hl) as Pl. destruct (n_place s); [contradiction|reflexivity..]. }
    rewrite E. clear E.
    assert (K : forall s1, live s1 -> n_errors s1 = n_errors s -> (~ stray_from (in_option s) [l] i i) ->
      (forall pre, inside_from (in_option s) (l :: pre) <-> inside_from (in_option s1) pre) ->
      exists s' e, read_lines ls (S i) s1 = inr s' /\ n_errors s' = n_errors s ++ e /\ StronglySorted lt e /\ Forall (fun j => (i <= j)%nat) e /\
        forall j, In j e <-> stray_from (in_option s) (l :: ls) i j).
    { intros s1 L1 E1 N1 I1. destruct (IH (S i) s1 L1) as (s' & e & R & Ee & So & Le & St). exists s', e. split; [exact R|]. split; [congruence|]. split; [exact So|].
      split; [eapply Forall_impl; [exact Le|]; cbn; intros; lia|]. intros j. rewrite St, (stray_step _ _ _ _ _ _ I1). tauto. }
    destruct (skipped l) eqn:Sk.
    { apply skipped_iff in Sk. apply K; [exact Hl|reflexivity| |].
      - rewrite stray_one. tauto.
      - intros pre. apply inside_neutral. split; intros []; contradiction. }
    assert (Hi : ~ ignored l) by (rewrite <- skipped_iff; congruence).
    destruct (continued l s) eqn:Ct.
    { apply continued_iff in Ct as [C1 C2]; [|exact Hl]. apply K; [apply append_value_live, Hl| | |].
      - unfold append_value. destruct (n_opt s); [apply set_cur_errors|reflexivity].
      - rewrite stray_one. tauto.
      - intros pre. rewrite inside_neutral.
        + apply inside_equiv. unfold in_option. rewrite append_value_opt. reflexivity.
        + destruct C1 as (c & l' & -> & Hc). apply is_space_iff in Hc. split.
          * intros [_ [n H]]. apply header_head in H. congruence.
          * intros (_ & _ & o & v & H). apply setting_head in H. congruence. }
    destruct (match_section l) as [n|] eqn:Sc.
    { apply header_iff in Sc. assert (Hh : heads l) by (split; eauto). apply K; [apply enter_live|apply enter_errors| |].
      - rewrite stray_one. tauto.
      - intros pre. rewrite inside_heads by exact Hh. apply inside_equiv. unfold in_option. rewrite enter_opt. split; [intros []|intros (o & H & _); discriminate]. }
    assert (Hh : forall n, ~ header l n) by (intros n Hx; apply header_iff in Hx; congruence).
    destruct (match_option l) as [[nm w]|] eqn:Mo.
    + apply option_setting in Mo; [|exact Hn]. assert (Hs : sets l) by (split; [exact Hi|]; split; [exact Hh|eauto]).
      apply K; [apply run_set_live, Hl|apply run_set_errors| |].
      * rewrite stray_one. tauto.
      * intros pre. rewrite inside_sets by exact Hs. apply inside_equiv. symmetry. eapply run_set_in_option, Mo.
    + clear K. assert (Ns : ~ sets l). { intros (_ & _ & o & v & H). apply setting_iff in H as (? & ? & H & _); [congruence|exact Hn]. }
      assert (Nh : ~ heads l) by (intros [_ [n H]]; eapply Hh, H).
      destruct (IH (S i) (Ist (n_defaults s) (n_sections s) (n_place s) (n_opt s) (n_errors s ++ [i])) Hl) as (s' & e & R & Ee & So & Le & St).
      exists s', (i :: e). split; [exact R|]. split; [rewrite Ee; cbn; rewrite <- app_assoc; reflexivity|].
      split; [constructor; [exact So|eapply Forall_impl; [exact Le|]; cbn; intros; lia]|].
      split; [constructor; [lia|eapply Forall_impl; [exact Le|]; cbn; intros; lia]|].
      intros j. cbn [In]. rewrite St. rewrite (stray_step (in_option s) (in_option s)) by (intros; apply inside_neutral; split; assumption).
      rewrite stray_one. assert (Cn : ~ ((exists c l', l = c :: l' /\ in_ws c) /\ in_option s)) by (intros Hc; apply continued_iff in Hc; [congruence|exact Hl]).
      change (in_option (Ist _ _ _ _ _)) with (in_option s). split; [intros [<-|H]; auto 10|intros [[-> _]|H]; auto].
Qed.

Lemma read_first ls : Forall (fun l => ~ In c_nl l) ls -> forall i,
  (Forall ignored ls /\ read_lines ls i ist0 = inr ist0) \/
  (exists pre l post, ls = pre ++ l :: post /\ Forall ignored pre /\ ~ ignored l /\ ~ heads l /\ read_lines ls i ist0 = inl (MissingHeader (i + length pre))) \/
  (exists pre l n post, ls = pre ++ l :: post /\ Forall ignored pre /\ ~ ignored l /\ header l n /\ read_lines ls i ist0 = read_lines post (S (i + length pre)) (enter n ist0)).
Proof.
  induction 1 as [|l ls Hn Hp IH]; intros i.
  - left. split; [constructor|reflexivity].
  - cbn [read_lines]. destruct (skipped l) eqn:Sk.
    + apply skipped_iff in Sk. destruct (IH (S i)) as [[H1 H2]|[(pre & x & post & -> & H1 & H2 & H3 & H4)|(pre & x & n & post & -> & H1 & H2 & H3 & H4)]].
      * left. split; [constructor; assumption|exact H2].
      * right. left. exists (l :: pre), x, post. split; [reflexivity|]. split; [constructor; assumption|]. do 2 (split; [assumption|]). rewrite H4. cbn [length]. do 2 f_equal. lia.
      * right. right. exists (l :: pre), x, n, post. split; [reflexivity|]. split; [constructor; assumption|]. do 2 (split; [assumption|]). rewrite H4. cbn [length]. f_equal. lia.
    + assert (Hi : ~ ignored l) by (rewrite <- skipped_iff; congruence).
      replace (continued l ist0) with false by (unfold continued; cbn; rewrite andb_false_r; reflexivity).
      destruct (match_section l) as [n|] eqn:Sc.
      * right. right. exists [], l, n, ls. split; [reflexivity|]. split; [constructor|]. split; [exact Hi|]. split; [apply header_iff, Sc|]. cbn [length]. f_equal. lia.
      * right. left. exists [], l, ls. split; [reflexivity|]. split; [constructor|]. split; [exact Hi|]. split; [intros [_ [n H]]; apply header_iff in H; congruence|]. cbn. do 2 f_equal. lia.
Qed.
Lemma headless_unique pre l post pre' l' post' : pre ++ l :: post = pre' ++ l' :: post' -> Forall ignored pre -> Forall ignored pre' -> ~ ignored l -> ~ ignored l' -> pre = pre' /\ l = l' /\ post = post'.
Proof.
  revert pre'. induction pre as [|x pre IH]; intros [|y pre'] E H1 H2 H3 H4; cbn [app] in E; injection E as E1 E2; subst.
  - auto.
  - apply Forall_cons in H2 as [H2 _]. contradiction.
  - apply Forall_cons in H1 as [H1 _]. contradiction.
  - apply Forall_cons in H1 as [_ H1], H2 as [_ H2]. destruct (IH _ E2 H1 H2 H3 H4) as (-> & -> & ->). auto.
Qed.
Lemma inside_ignored pre post : Forall ignored pre -> inside (pre ++ post) <-> inside post.
Proof.
  induction 1 as [|l pre H _ IH]; [reflexivity|]. cbn [app]. rewrite inside_cons, IH. split; [|auto]. intros [?|[[Hs _] _]]; [assumption|contradiction].
Qed.
Lemma stray_after pre l n post j : Forall ignored pre -> ~ ignored l -> header l n ->
  stray (pre ++ l :: post) j <-> stray_from False post (S (S (length pre))) j.
Proof.
  intros Hp Hi Hh. assert (Hd : heads l) by (split; eauto). 
  assert (I : forall p, inside (pre ++ l :: p) <-> inside_from False p).
  { intros p. rewrite inside_ignored by exact Hp. rewrite <- (inside_heads False l p Hd). unfold inside_from. tauto. }
  split.
  - intros (a & x & b & E & -> & H1 & H2 & H3 & H4).
    assert (Hx : exists a', a = pre ++ l :: a' /\ post = a' ++ x :: b).
    { clear - E Hp Hi Hd H1 H2. revert a E. induction Hp as [|y pre Hy _ IH]; intros a E.
      - destruct a as [|z a]; cbn [app] in E; injection E as E1 E2; subst; [contradiction|]. exists a. auto.
      - destruct a as [|z a]; cbn [app] in E; injection E as E1 E2; subst; [contradiction|]. destruct (IH _ E2) as (a' & -> & ->). exists a'. auto. }
    destruct Hx as (a' & -> & ->). exists a', x, b. split; [reflexivity|]. split; [rewrite app_length; cbn; lia|]. do 3 (split; [assumption|]). rewrite <- I. exact H4.
  - intros (a & x & b & -> & -> & H1 & H2 & H3 & H4). exists (pre ++ l :: a), x, b. split; [rewrite <- app_assoc; reflexivity|]. split; [rewrite app_length; cbn; lia|]. do 3 (split; [assumption|]). rewrite I. exact H4.
Qed.
Theorem read_headless t ls i : lines_in t ls -> (read_config t = inl (MissingHeader i) <-> headless ls i).
Proof.
  intros Hl. pose proof Hl as (_ & _ & Hn). apply lines_in_split in Hl. unfold read_config. rewrite readlines_split, Hl.
  destruct (read_first ls Hn 1) as [[H1 ->]|[(pre & l & post & -> & H1 & H2 & H3 & ->)|(pre & l & n & post & -> & H1 & H2 & H3 & ->)]].
  - split; [discriminate|]. intros (a & x & b & -> & _ & _ & H & _). apply Forall_app in H1 as [_ H1]. apply Forall_cons in H1 as [H1 _]. contradiction.
  - split.
    + intros [= <-]. exists pre, l, post. auto 10.
    + intros (a & x & b & E & -> & H4 & H5 & _). destruct (headless_unique _ _ _ _ _ _ E H1 H4 H2 H5) as (-> & _). reflexivity.
  - apply Forall_app in Hn as [_ Hn]. apply Forall_cons in Hn as [_ Hn]. destruct (read_strays post Hn (S (1 + length pre)) _ (enter_live n ist0)) as (s' & e & -> & _). split.
    + destruct (n_errors s'); discriminate.
    + intros (a & x & b & E & -> & H4 & H5 & H6). destruct (headless_unique _ _ _ _ _ _ E H1 H4 H2 H5) as (_ & -> & _). exfalso. apply H6. split; eauto.
Qed.
Theorem read_strayed t ls ns : lines_in t ls ->
  (read_config t = inl (Parsing ns) <-> (forall i, ~ headless ls i) /\ ns <> [] /\ StronglySorted lt ns /\ forall i, In i ns <-> stray ls i).
Proof.
  intros Hl. pose proof (read_headless t ls) as HH. pose proof Hl as (_ & _ & Hn). pose proof Hl as Hl'. apply lines_in_split in Hl. 
  assert (Uniq : forall a b : list nat, StronglySorted lt a -> StronglySorted lt b -> (forall i, In i a <-> In i b) -> a = b).
  { clear. induction a as [|x a IH]; intros [|y b] Ha Hb H; [reflexivity|exfalso; apply (H y); left; reflexivity|exfalso; apply (H x); left; reflexivity|].
    apply StronglySorted_inv in Ha as [Ha Hx], Hb as [Hb Hy]. rewrite Forall_forall in Hx, Hy.
    assert (x = y) as ->. { destruct (proj1 (H x) (or_introl eq_refl)) as [E|E]; [auto|]. destruct (proj2 (H y) (or_introl eq_refl)) as [E'|E']; [auto|].
      apply elem_of_list_In, Hy in E. apply elem_of_list_In, Hx in E'. lia. }
    f_equal. apply IH; [assumption..|]. intros i. specialize (H i). cbn [In] in H. split; intros Hi.
    - destruct (proj1 H (or_intror Hi)) as [<-|E]; [|exact E]. apply elem_of_list_In, Hx in Hi. lia.
    - destruct (proj2 H (or_intror Hi)) as [<-|E]; [|exact E]. apply elem_of_list_In, Hy in Hi. lia. }
  unfold read_config in *. rewrite readlines_split, Hl in *.
  destruct (read_first ls Hn 1) as [[H1 R]|[(pre & l & post & -> & H1 & H2 & H3 & R)|(pre & l & n & post & -> & H1 & H2 & H3 & R)]]; rewrite R in *.
  - split; [discriminate|]. intros (_ & Hne & _ & H). destruct ns as [|j ns]; [contradiction|]. exfalso. destruct (proj1 (H j) (or_introl eq_refl)) as (a & x & b & -> & _ & Hx & _).
    apply Forall_app in H1 as [_ H1]. apply Forall_cons in H1 as [H1 _]. contradiction.
  - split; [discriminate|]. intros (H & _). exfalso. apply (H (S (length pre))). exists pre, l, post. auto 10.
  - pose proof Hn as Hn'. apply Forall_app in Hn' as [_ Hn']. apply Forall_cons in Hn' as [_ Hn']. destruct (read_strays post Hn' (S (1 + length pre)) _ (enter_live n ist0)) as (s' & e & R' & Ee & So & _ & St). rewrite R' in *.
    rewrite enter_errors in Ee. cbn in Ee.
    assert (St' : forall j, In j e <-> stray (pre ++ l :: post) j).
    { intros j. rewrite St, (stray_after _ _ n) by assumption. cbn [Nat.add]. assert (Ef : in_option (enter n ist0) <-> False) by (unfold in_option; rewrite enter_opt; split; [intros (o & H & _); discriminate|intros []]).
      split; apply stray_equiv; [exact Ef|symmetry; exact Ef]. }
    assert (Nh : forall i, ~ headless (pre ++ l :: post) i). { intros i (a & x & b & E & -> & H4 & H5 & H6). destruct (headless_unique _ _ _ _ _ _ E H1 H4 H2 H5) as (_ & -> & _). apply H6. split; eauto. }
    rewrite Ee. destruct e as [|j e].
    + split; [discriminate|]. intros (_ & Hne & _ & H). destruct ns as [|k ns]; [contradiction|]. exfalso. apply (St' k), H. left. reflexivity.
    + split; [intros [= <-]; split; [exact Nh|]; split; [discriminate|]; split; [exact So|exact St']|].
      intros (_ & _ & Hs & H). do 2 f_equal. apply Uniq; [assumption..|]. intros k. rewrite St', H. reflexivity.
Qed.
