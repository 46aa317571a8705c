From Verif Require Import Base StrFacts LineSpec LineFacts AssemblySpec Num Process Service Ini IniSpec IniFacts IniRead.

(** ** a file that was written is read back *)
Lemma stripped_self v : no_outer_ws v -> stripped v v.
Proof. intros H. exists [], []. rewrite app_nil_r. split; [reflexivity|]. split; [intros c []|]. split; [intros c []|exact H]. Qed.
Lemma plain_header n : plain_section n -> header (B "[" ++ n ++ B "]") n /\ ~ ignored (B "[" ++ n ++ B "]") /\ ~ In c_nl (B "[" ++ n ++ B "]").
Proof.
  intros (H1 & H2 & H3 & _). split; [exists []; auto|]. split.
  - intros [H|[(x & r & E & H)|(a & b & d & r & E & Ha & _)]].
    + specialize (H "["%char (or_introl eq_refl)). apply is_space_iff in H. discriminate.
    + injection E as <- _. apply has_In in H. discriminate.
    + injection E as <- _. apply has_In in Ha. discriminate.
  - rewrite !in_app_iff. intros [E|[E|E]]; [apply has_In in E; discriminate|contradiction|apply has_In in E; discriminate].
Qed.
Lemma plain_line o v : plain_option o -> plain_first v -> let l := o ++ B ": " ++ v in
  setting l o v /\ (forall n, ~ header l n) /\ ~ ignored l /\ ~ In c_nl l.
Proof.
  intros (O1 & O2 & O3 & O4 & O5) (V1 & V2 & V3 & V4). cbn zeta. destruct o as [|c o]; [contradiction|]. split; [|split; [|split]].
  - exists (c :: o), [], ":"%char, (B " " ++ v). split; [reflexivity|]. split; [left; reflexivity|]. split; [intros x Hx; apply O3, Hx|]. split; [discriminate|]. split.
    { split; [intros x s' [= <- <-]; apply O2; left; reflexivity|intros x s' E; apply O2; rewrite E; apply in_or_app; right; left; reflexivity]. }
    split; [intros x []|]. split. { apply downs_iff. clear - O3. induction (c :: o) as [|x s IH]; [reflexivity|]. cbn [map]. f_equal; [|apply IH; intros y Hy; apply O3; right; exact Hy]. apply down_iff. left. split; [apply O3; left; reflexivity|reflexivity]. }
    exists (B " "), v, v, v. split; [reflexivity|]. split; [intros x [<-|[]]; apply is_space_iff; reflexivity|]. split; [intros x t' E; apply (proj1 V1 x t' E)|]. split; [apply uc_none, V3|]. split; [apply stripped_self, V1|]. split; [intros E; contradiction|reflexivity].
  - intros n (r & E & _). cbn [app] in E. injection E as E _. apply (O5 c o eq_refl). rewrite E. right. right. left. reflexivity.
  - intros [H|[(x & r & E & H)|(a & b & d & r & E & Ha & Hb & Hd & Hr)]].
    + apply (O2 c (or_introl eq_refl)). apply H. left. reflexivity.
    + cbn [app] in E. injection E as <- _. apply (O5 c o eq_refl). destruct H as [H|[H|[]]]; [left|right; left]; exact H.
    + (* rem followed by a space: the space is in the option, or is the colon *)
      assert (Hl : forall x, In x (B "rReEmM") -> x <> ":"%char) by (intros x Hx ->; repeat (destruct Hx as [Hx|Hx]; [discriminate|]); destruct Hx).
      assert (Nb : b <> ":"%char) by (apply Hl; destruct Hb as [<-|[<-|[]]]; apply has_In; reflexivity).
      assert (Ndc : d <> ":"%char) by (apply Hl; destruct Hd as [<-|[<-|[]]]; apply has_In; reflexivity).
      destruct o as [|c2 [|c3 o]]; cbn [app] in E; [injection E as _ E _ _; congruence|injection E as _ _ E _; congruence|].
      injection E as <- <- <- E. destruct Hr as [->|(s & r' & -> & Hs)]; [destruct o; discriminate|]. destruct o as [|y o].
      * cbn [app] in E. injection E as E _. subst s. apply is_space_iff in Hs. discriminate.
      * cbn [app] in E. injection E as <- _. apply (O2 y); [right; right; right; left; reflexivity|exact Hs].
  - intros Hin. apply in_app_or in Hin as [Hin|Hin]; [apply (O2 _ Hin); apply is_space_iff; reflexivity|]. destruct Hin as [E|[E|Hin]]; [discriminate|discriminate|contradiction].
Qed.
Lemma plain_more v : plain_further v -> further (B " " ++ v) v /\ ~ ignored (B " " ++ v) /\ ~ In c_nl (B " " ++ v).
Proof.
  intros (H1 & H2 & H3). split; [|split].
  - split; [exists " "%char, v; split; [reflexivity|apply is_space_iff; reflexivity]|]. exists (B " "), []. rewrite app_nil_r. split; [reflexivity|]. split; [intros x [<-|[]]; apply is_space_iff; reflexivity|]. split; [intros x []|exact H2].
  - intros [H|[(x & r & E & H)|(a & b & d & r & E & Ha & _)]].
    + destruct v as [|c v]; [contradiction|]. apply (proj1 H2 c v eq_refl). apply H. right. left. reflexivity.
    + injection E as <- _. apply has_In in H. discriminate.
    + injection E as <- _. apply has_In in Ha. discriminate.
  - intros [E|E]; [discriminate|contradiction].
Qed.
Lemma plain_settings es : Forall plain_setting es -> settings (concat (map setting_lines es)) es /\ Forall (fun l => ~ ignored l /\ ~ In c_nl l) (concat (map setting_lines es)).
Proof.
  induction 1 as [|[o vv] es (Ho & v & vs & E & Hv & Hvs) _ [IH1 IH2]]; [split; constructor|]. cbn [fst snd] in *. subst vv. cbn [map concat setting_lines fst snd].
  destruct (plain_line o v Ho Hv) as (L1 & L2 & L3 & L4).
  assert (F : Forall2 further (map (fun w => B " " ++ w) vs) vs /\ Forall (fun l => ~ ignored l /\ ~ In c_nl l) (map (fun w => B " " ++ w) vs)).
  { clear -Hvs. induction Hvs as [|w vs Hw _ [A1 A2]]; [split; constructor|]. destruct (plain_more w Hw) as (B1 & B2 & B3). split; constructor; auto. }
  destruct F as [F1 F2]. split.
  - rewrite <- app_comm_cons. constructor; assumption.
  - rewrite <- app_comm_cons. constructor; [auto|]. apply Forall_app. auto.
Qed.
Lemma plain_says bs : plain_file bs -> says (file_text bs) bs.
Proof.
  intros [_ H]. set (ss := concat (map (fun b => (B "[" ++ fst b ++ B "]") :: concat (map setting_lines (snd b))) bs)).
  assert (P : blocks ss bs /\ Forall (fun l => ~ ignored l /\ ~ In c_nl l) ss).
  { subst ss. induction H as [|[n es] bs (Hn & _ & He) _ [IH1 IH2]]; [split; constructor|]. cbn [fst snd map concat] in *.
    destruct (plain_header n Hn) as (A1 & A2 & A3). destruct (plain_settings es He) as [B1 B2]. split; [rewrite <- app_comm_cons; constructor; assumption|].
    rewrite <- app_comm_cons. constructor; [auto|]. apply Forall_app. auto. }
  destruct P as [P1 P2]. exists (ss ++ [[]]), ss. split; [|split; [|exact P1]].
  - split; [destruct ss; discriminate|]. split; [reflexivity|]. apply Forall_app. split; [eapply Forall_impl; [exact P2|]; cbn; tauto|]. constructor; [intros []|constructor].
  - clear P1. induction P2 as [|l ss' [Hl _] _ IH]; [apply sg_skip; [left; intros c []|constructor]|]. cbn [app]. apply sg_keep; assumption.
Qed.
Lemma firsts_id l : NoDup l -> firsts l = l.
Proof.
  induction l as [|x k IHk]; [reflexivity|]. intros H. apply NoDup_cons in H as [Hx Hk]. cbn [firsts]. rewrite IHk by exact Hk. f_equal.
  clear - Hx. induction k as [|y k IH]; [reflexivity|]. apply not_elem_of_cons in Hx as [H1 H2]. rewrite filter_cons_True by congruence. f_equal. auto.
Qed.
Lemma filter_all {A} (P : A -> Prop) `{forall x, Decision (P x)} l : Forall P l -> filter P l = l.
Proof. induction 1 as [|x l Hx _ IH]; [reflexivity|]. rewrite filter_cons_True by exact Hx. f_equal. exact IH. Qed.
Lemma filter_none {A} (P : A -> Prop) `{forall x, Decision (P x)} l : Forall (fun x => ~ P x) l -> filter P l = [].
Proof. induction 1 as [|x l Hx _ IH]; [reflexivity|]. rewrite filter_cons_False by exact Hx. exact IH. Qed.
Lemma filter_key {V} (d : list (str * V)) k v : NoDup (map fst d) -> (k, v) ∈ d -> filter (fun e => fst e = k) d = [(k, v)].
Proof.
  induction d as [|[x u] d IH]; intros Nd Hin; [apply elem_of_nil in Hin; contradiction|]. cbn [map fst] in Nd. apply NoDup_cons in Nd as [Hx Nd]. apply elem_of_cons in Hin as [[= -> ->]|Hin].
  - rewrite filter_cons_True by reflexivity. f_equal. apply filter_none, Forall_forall. intros [y w] Hy. cbn. intros ->. apply Hx, elem_of_list_fmap. exists (x, w). auto.
  - rewrite filter_cons_False; [auto|]. cbn. intros ->. apply Hx, elem_of_list_fmap. exists (k, v). auto.
Qed.
Lemma plain_meaning bs : plain_file bs -> meaning bs = plainly bs.
Proof.
  intros [Nd H]. unfold meaning, plainly. rewrite firsts_id by exact Nd.
  assert (Hd : Forall (fun n => n <> B "DEFAULT") (map fst bs)). { apply Forall_fmap. eapply Forall_impl; [exact H|]. cbn. intros b ((_ & _ & _ & D) & _). exact D. }
  rewrite (filter_all _ _ Hd).
  assert (Ed : settings_of (B "DEFAULT") bs = []). { unfold settings_of. rewrite filter_none; [reflexivity|]. rewrite Forall_fmap in Hd. exact Hd. }
  rewrite Ed. cbn [app]. rewrite map_map. apply map_ext_in. intros [n es] Hin. apply elem_of_list_In in Hin. cbn [fst snd]. f_equal.
  assert (Es : settings_of n bs = es) by (unfold settings_of; rewrite (filter_key _ n es) by assumption; cbn; apply app_nil_r). rewrite Es.
  rewrite Forall_forall in H. destruct (H _ Hin) as (_ & Ne & Hs). cbn [snd] in *. unfold contents. rewrite firsts_id by exact Ne.
  rewrite filter_all. 2:{ apply Forall_fmap. eapply Forall_impl; [exact Hs|]. intros e [(_ & _ & _ & D & _) _]. exact D. }
  rewrite map_map. apply map_ext_in. intros [o vs] Ho. apply elem_of_list_In in Ho. cbn [fst snd]. f_equal. unfold final. rewrite (filter_key _ o vs) by assumption. reflexivity.
Qed.
Theorem written_read bs : plain_file bs -> read_config (file_text bs) = inr (plainly bs).
Proof. intros H. rewrite (says_read _ _ (plain_says _ H)), plain_meaning by exact H. reflexivity. Qed.
