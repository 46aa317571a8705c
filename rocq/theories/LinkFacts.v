(** Router.ready, over every history of the redirects. *)
From Verif Require Import Base StrFacts Client ClientFacts Router RouterSpec RouterFacts RouterProps Links.

(** ** The chain *)
Lemma settle_nil f w : settle f w = [] <-> forall i, i ∈ w -> i ∈ f.
Proof.
  induction w as [|i w IH]; cbn [settle]; [split; [intros _ j H; inversion H|reflexivity]|].
  destruct (bool_decide_reflect (i ∈ f)) as [Hi|Hi].
  - rewrite IH. split; intros H j; [intros Hj; apply elem_of_cons in Hj as [->|Hj]; auto|intros Hj; apply H; right; exact Hj].
  - split; [discriminate|]. intros H. exfalso. apply Hi, H. left.
Qed.
Lemma settle_settle f f' w : (forall i, i ∈ f -> i ∈ f') -> settle f' (settle f w) = settle f' w.
Proof.
  intros Hs. induction w as [|i w IH]; [reflexivity|]. cbn [settle].
  destruct (bool_decide_reflect (i ∈ f)) as [Hi|Hi].
  - rewrite (bool_decide_eq_true_2 _ (Hs i Hi)). exact IH.
  - reflexivity.
Qed.

(** ** One history *)
Definition occ (i : nat) (l : list nat) : nat := length (List.filter (Nat.eqb i) l).
Lemma occ_app i l k : occ i (l ++ k) = (occ i l + occ i k)%nat.
Proof. unfold occ. rewrite List.filter_app, app_length. reflexivity. Qed.
Lemma occ_one i j : occ i [j] = if (i =? j)%nat then 1%nat else 0%nat.
Proof. unfold occ. cbn. destruct (i =? j)%nat; reflexivity. Qed.
Lemma occ_none i l : ~ i ∈ l -> occ i l = 0%nat.
Proof.
  intros H. unfold occ. induction l as [|j l IH]; [reflexivity|]. cbn.
  destruct (Nat.eqb_spec i j) as [->|_]; [exfalso; apply H; left|]. apply IH. intros Hi. apply H. right. exact Hi.
Qed.
(** how often redirect [i] was resolved *)
Definition resolved (es : list levent) (i : nat) : nat :=
  length (List.filter (fun e => match e with LUdpEvent j (EResolved _) => (i =? j)%nat | _ => false end) es).
Lemma resolved_app es es' i : resolved (es ++ es') i = (resolved es i + resolved es' i)%nat.
Proof. unfold resolved. rewrite List.filter_app, app_length. reflexivity. Qed.
Lemma resolved_pos es i : (0 < resolved es i)%nat <-> exists ip, In (LUdpEvent i (EResolved ip)) es.
Proof.
  unfold resolved. split.
  - intros H. destruct (List.filter _ es) as [|e l] eqn:E; [cbn in H; lia|].
    assert (Hi : In e (e :: l)) by (left; reflexivity). rewrite <- E in Hi. apply filter_In in Hi as [Hi He].
    destruct e as [| |j [|ip| | |]|]; try discriminate. apply Nat.eqb_eq in He as <-. eauto.
  - intros [ip Hi]. assert (Hf : In (LUdpEvent i (EResolved ip)) (List.filter (fun e => match e with LUdpEvent j (EResolved _) => (i =? j)%nat | _ => false end) es)).
    { apply filter_In. split; [exact Hi|]. apply Nat.eqb_refl. }
    destruct (List.filter _ es); [destruct Hf|cbn; lia].
Qed.
Definition lit (is_ip : str -> bool) (h : str) : nat := if is_ip h then 1%nat else 0%nat.

(** what is true of redirect [i], made by a rule [(tcp, host, port)], after [es] *)
Definition link_ok (is_ip : str -> bool) (i : nat) (l : lspec) (es : list levent) (s : lst) : Prop :=
  let '(tcp, h, _) := l in
  if tcp then exists f, l_links s !! i = Some (LTcp f) /\ (tf_callback f = false <-> In (LConnected i) es) /\
                (i ∈ l_due s \/ i ∈ l_fired s <-> In (LConnected i) es) /\ occ i (l_raised s) = 0%nat
  else exists u, l_links s !! i = Some (LUdp u) /\ u_connects u = (lit is_ip h + resolved es i)%nat /\
         ~ i ∈ l_due s /\ (i ∈ l_fired s <-> (0 < lit is_ip h + resolved es i)%nat) /\
         occ i (l_raised s) = (lit is_ip h + resolved es i - 1)%nat.
Record links_ok (is_ip : str -> bool) (ls : list lspec) (es : list levent) (s : lst) : Prop := {
  lo_links : forall i l, ls !! i = Some l -> link_ok is_ip i l es s;
  lo_length : length (l_links s) = length ls;
  lo_nodup : base.NoDup (l_due s ++ l_fired s);
  lo_wait : l_wait s = settle (l_fired s) (seq 0 (length ls)) }.

Section facts.
Context (is_ip : str -> bool) (ls : list lspec) (N : unet).
Notation ok := (links_ok is_ip ls).

Lemma new_ok : ok [] (links_new is_ip ls).
Proof.
  split; cbn [links_new l_links l_due l_fired l_wait l_raised].
  - intros i [[tcp h] p] Hi.
    assert (Hl : map (new_link is_ip) ls !! i = Some (new_link is_ip (tcp, h, p))) by (rewrite list_lookup_fmap, Hi; reflexivity).
    assert (Hf : i ∈ List.filter (fun i => match map (new_link is_ip) ls !! i with Some l => (0 <? announced l)%nat | None => false end) (seq 0 (length ls)) <->
                 (0 <? announced (new_link is_ip (tcp, h, p)))%nat = true).
    { rewrite elem_of_list_In, filter_In, Hl. split; [tauto|]. intros H. split; [|exact H].
      apply in_seq. apply lookup_lt_Some in Hi. lia. }
    unfold link_ok, links_new. cbn [l_links l_due l_fired l_wait l_raised]. destruct tcp.
    + exists tf_new. split; [exact Hl|]. split; [split; [discriminate|intros []]|]. split; [|reflexivity].
      split; [|intros []]. intros [H|H]; [inversion H|]. apply Hf in H. cbn in H. discriminate.
    + eexists. split; [exact Hl|]. pose proof (create_connects redirect_cfg is_ip h [] N) as Hc. cbn [urun fold_left resolutions flat_map length] in Hc.
      unfold has_connect in Hc. cbn [redirect_cfg uc_connect] in Hc. unfold lit, resolved. cbn [List.filter length].
      split; [rewrite Hc; lia|]. split; [intros H; inversion H|]. split; [|destruct (is_ip h); reflexivity].
      rewrite Hf. cbn [new_link announced]. rewrite Hc, Nat.ltb_lt. lia.
  - rewrite map_length. reflexivity.
  - cbn [app]. apply NoDup_ListNoDup. apply List.NoDup_filter. apply seq_NoDup.
  - reflexivity.
Qed.

Lemma fire_links i s : l_links (fire i s) = l_links s /\ l_due (fire i s) = l_due s.
Proof. unfold fire. destruct (bool_decide _); auto. Qed.
Lemma fire_wait i s : l_wait s = settle (l_fired s) (seq 0 (length ls)) ->
  l_wait (fire i s) = settle (l_fired (fire i s)) (seq 0 (length ls)).
Proof.
  intros H. unfold fire. destruct (bool_decide _); [exact H|]. cbn. rewrite H, settle_settle; [reflexivity|].
  intros j Hj. apply elem_of_app. auto.
Qed.
Lemma in_snoc {A} (x : A) l y : In x (l ++ [y]) <-> In x l \/ y = x.
Proof. rewrite in_app_iff. cbn. tauto. Qed.
(** an event that leaves redirect [i] alone *)
Lemma other_ok i l es e s links due fired wait raised : link_ok is_ip i l es s ->
  e <> LConnected i -> (forall ip, e <> LUdpEvent i (EResolved ip)) -> links !! i = l_links s !! i ->
  (i ∈ due <-> i ∈ l_due s) -> (i ∈ fired <-> i ∈ l_fired s) -> occ i raised = occ i (l_raised s) ->
  link_ok is_ip i l (es ++ [e]) (LSt links due fired wait raised).
Proof.
  intros H He He' H0 H1 H2 H4. destruct l as [[tcp h] p]. unfold link_ok in *.
  assert (Hr : resolved (es ++ [e]) i = resolved es i).
  { rewrite resolved_app. unfold resolved at 2. cbn. destruct e as [| |k [|ip| | |]|]; cbn; try lia.
    destruct (Nat.eqb_spec i k) as [->|_]; [exfalso; eapply He'; reflexivity|cbn; lia]. }
  assert (Hc : In (LConnected i) (es ++ [e]) <-> In (LConnected i) es) by (rewrite in_snoc; intuition congruence).
  cbn [l_links l_due l_fired l_raised]. destruct tcp.
  - destruct H as (f & A1 & A2 & A3 & A4). exists f. rewrite Hc, H0, H1, H2, H4. auto.
  - destruct H as (u & A1 & A2 & A3 & A4 & A5). exists u. rewrite H0, H1, H2, H4, Hr. auto.
Qed.
Lemma same_ok i l es e s : link_ok is_ip i l es s ->
  e <> LConnected i -> (forall ip, e <> LUdpEvent i (EResolved ip)) -> link_ok is_ip i l (es ++ [e]) s.
Proof. intros H H1 H2. destruct s. eapply other_ok; [exact H|exact H1|exact H2|reflexivity..]. Qed.
Lemma tcp_link i es s f : ok es s -> l_links s !! i = Some (LTcp f) -> exists h p, ls !! i = Some (true, h, p).
Proof.
  intros [Hk Hlen _ _] Hi. destruct (lookup_lt_is_Some_2 ls i) as [[[tcp h] p] Hs]; [apply lookup_lt_Some in Hi; lia|].
  destruct tcp; [eauto|]. destruct (Hk i _ Hs) as (u & A & _). congruence.
Qed.
Lemma udp_link i es s u : ok es s -> l_links s !! i = Some (LUdp u) -> exists h p, ls !! i = Some (false, h, p).
Proof.
  intros [Hk Hlen _ _] Hi. destruct (lookup_lt_is_Some_2 ls i) as [[[tcp h] p] Hs]; [apply lookup_lt_Some in Hi; lia|].
  destruct tcp; [|eauto]. destruct (Hk i _ Hs) as (f & A & _). congruence.
Qed.

Lemma connected_ok es s j : ok es s -> ok (es ++ [LConnected j]) (lstep N s (LConnected j)).
Proof.
  intros Hok. pose proof Hok as [Hk Hlen Hnd Hw]. cbn [lstep].
  assert (Hskip : (forall f, l_links s !! j <> Some (LTcp f)) -> ok (es ++ [LConnected j]) s).
  { intros Hn. split; [|assumption..]. intros i l Hi. destruct (decide (i = j)) as [->|Hij]; [|apply same_ok; [auto|congruence..]].
    specialize (Hk j l Hi). destruct l as [[[|] h] p].
    - destruct Hk as (f & A & _). exfalso. eapply Hn, A.
    - unfold link_ok in *. rewrite resolved_app. change (resolved [LConnected j] j) with 0%nat. rewrite Nat.add_0_r. exact Hk. }
  destruct (l_links s !! j) as [[u|f]|] eqn:Ej; [apply Hskip; congruence| |apply Hskip; congruence].
  destruct (tcp_link j es s f Hok Ej) as (h & p & Hs).
  destruct (Hk j _ Hs) as (f' & A1 & A2 & A3 & A4). rewrite Ej in A1. injection A1 as <-.
  assert (Hnew : tf_callback f = true -> ~ j ∈ l_due s /\ ~ j ∈ l_fired s).
  { intros H. split; intros H'; assert (tf_callback f = false) by (apply A2, A3; auto); congruence. }
  split; cbn [l_links l_due l_fired l_wait l_raised].
  - intros i l Hi. destruct (decide (i = j)) as [->|Hij].
    + pose proof (eq_trans (eq_sym Hs) Hi) as E. injection E as <-. exists (tf_build f). cbn [l_links l_due l_fired l_raised].
      rewrite list_lookup_insert by (eapply lookup_lt_Some, Ej). split; [reflexivity|]. rewrite in_snoc. cbn [tf_build tf_callback].
      split; [split; auto|]. split; [|exact A4]. split; [auto|]. intros _.
      destruct (tf_callback f) eqn:Ef; [left; apply elem_of_app; right; left|]. apply A3, A2. reflexivity.
    + apply (other_ok i l es (LConnected j) s); [auto|congruence|congruence|apply list_lookup_insert_ne; auto| |reflexivity|reflexivity].
      destruct (tf_callback f); [|reflexivity]. rewrite elem_of_app, elem_of_list_singleton. tauto.
  - rewrite insert_length. exact Hlen.
  - destruct (tf_callback f) eqn:Ef; [|exact Hnd]. destruct (Hnew eq_refl) as [N1 N2].
    rewrite <- app_assoc. cbn. rewrite <- Permutation_middle. constructor; [rewrite elem_of_app; tauto|exact Hnd].
  - exact Hw.
Qed.

Lemma run_ok es s k : ok es s -> ok (es ++ [LRun k]) (lstep N s (LRun k)).
Proof.
  intros Hok. pose proof Hok as [Hk Hlen Hnd Hw]. cbn [lstep].
  destruct (l_due s !! k) as [j|] eqn:Ed.
  2:{ split; [|assumption..]. intros i l Hi. apply same_ok; [auto|discriminate|discriminate]. }
  assert (Hj : j ∈ l_due s) by (eapply elem_of_list_lookup_2, Ed).
  assert (Hper : l_due s ≡ₚ j :: delete k (l_due s)) by (apply delete_Permutation, Ed).
  assert (Hin : forall i, i ∈ l_due s <-> i ∈ j :: delete k (l_due s)) by (intros i; rewrite <- Hper; reflexivity).
  pose proof Hnd as (Hnd1 & Hnd2 & Hnd3)%NoDup_app.
  assert (Hf : ~ j ∈ l_fired s) by (apply Hnd2, Hj).
  rewrite Hper in Hnd1. apply NoDup_cons in Hnd1 as [Hjd Hnd1].
  unfold fire. cbn [l_fired l_links l_due l_wait l_raised]. rewrite (bool_decide_eq_false_2 _ Hf).
  split; cbn [l_links l_due l_fired l_wait l_raised].
  - intros i l Hi. destruct (decide (i = j)) as [->|Hij].
    + pose proof (Hk j l Hi) as H. destruct l as [[[|] h] p].
      * destruct H as (f & A1 & A2 & A3 & A4). exists f. cbn [l_links l_due l_fired l_raised]. rewrite in_snoc.
        assert (Hc : In (LConnected j) es) by (apply A3; auto).
        split; [exact A1|]. split; [tauto|]. split; [|exact A4]. split; [auto|]. intros _. right. apply elem_of_app. right. left.
      * destruct H as (u & _ & _ & H & _). contradiction.
    + apply (other_ok i l es (LRun k) s); [auto|discriminate|discriminate|reflexivity| | |reflexivity].
      * rewrite (Hin i), elem_of_cons. tauto.
      * rewrite elem_of_app, elem_of_list_singleton. tauto.
  - exact Hlen.
  - apply NoDup_app. split; [exact Hnd1|]. split.
    + intros i Hi. rewrite elem_of_app, elem_of_list_singleton. intros [H| ->]; [|contradiction].
      revert H. apply Hnd2, Hin. right. exact Hi.
    + apply NoDup_app. split; [exact Hnd3|]. split; [|apply NoDup_singleton]. intros i Hi. rewrite elem_of_list_singleton. congruence.
  - rewrite Hw, settle_settle; [reflexivity|]. intros i Hi. apply elem_of_app. auto.
Qed.

Lemma udp_ok es s j e : ok es s -> ok (es ++ [LUdpEvent j e]) (lstep N s (LUdpEvent j e)).
Proof.
  intros Hok. pose proof Hok as [Hk Hlen Hnd Hw]. cbn [lstep].
  assert (Hskip : (forall u, l_links s !! j <> Some (LUdp u)) -> ok (es ++ [LUdpEvent j e]) s).
  { intros Hn. split; [|assumption..]. intros i l Hi. destruct (decide (i = j)) as [->|Hij]; [|apply same_ok; [auto|congruence..]].
    specialize (Hk j l Hi). destruct l as [[[|] h] p].
    - destruct Hk as (f & A1 & A2 & A3 & A4). exists f. rewrite in_snoc. intuition congruence.
    - destruct Hk as (u & A & _). exfalso. eapply Hn, A. }
  destruct (l_links s !! j) as [[u|f]|] eqn:Ej; [|apply Hskip; congruence..].
  destruct (udp_link j es s u Hok Ej) as (h & p & Hs).
  destruct (Hk j _ Hs) as (u' & A1 & A2 & A3 & A4 & A5). rewrite Ej in A1. injection A1 as <-.
  set (u' := fst (ustep N redirect_cfg e u)).
  assert (Hu : u_connects u' = (u_connects u + resolved [LUdpEvent j e] j)%nat).
  { unfold u'. rewrite step_connects. unfold has_connect. cbn [redirect_cfg uc_connect]. f_equal.
    unfold resolved. cbn. destruct e; cbn; rewrite ?Nat.eqb_refl; reflexivity. }
  assert (Hres : resolved (es ++ [LUdpEvent j e]) j = (resolved es j + resolved [LUdpEvent j e] j)%nat) by apply resolved_app.
  assert (Hone : (resolved [LUdpEvent j e] j <= 1)%nat) by (unfold resolved; cbn; destruct e; cbn; rewrite ?Nat.eqb_refl; cbn; lia).
  set (n := resolved [LUdpEvent j e] j) in *.
  set (s' := LSt (<[j := LUdp u']> (l_links s)) (l_due s) (l_fired s) (l_wait s) (l_raised s)).
  assert (Hlook : <[j := LUdp u']> (l_links s) !! j = Some (LUdp u')) by (apply list_lookup_insert; eapply lookup_lt_Some, Ej).
  destruct (u_connects u <? u_connects u')%nat eqn:El.
  - apply Nat.ltb_lt in El. assert (n = 1)%nat by lia.
    unfold fire. cbn [s' l_fired l_links l_due l_wait l_raised].
    destruct (bool_decide_reflect (j ∈ l_fired s)) as [Hf|Hf].
    + split; cbn [l_links l_due l_fired l_wait l_raised]; [|rewrite insert_length; exact Hlen|exact Hnd|exact Hw].
      intros i l Hi. destruct (decide (i = j)) as [->|Hij].
      * pose proof (eq_trans (eq_sym Hs) Hi) as E. injection E as <-. exists u'. cbn [l_links l_due l_fired l_raised]. rewrite Hres, occ_app, occ_one, Nat.eqb_refl.
        apply A4 in Hf as Hf'. split; [exact Hlook|]. split; [lia|]. split; [exact A3|]. split; [split; [lia|auto]|]. lia.
      * apply (other_ok i l es (LUdpEvent j e) s); [auto|discriminate|congruence|apply list_lookup_insert_ne; auto|reflexivity|reflexivity|].
        rewrite occ_app, occ_one. apply Nat.eqb_neq in Hij. rewrite Hij. lia.
    + pose proof Hnd as (Hnd1 & Hnd2 & Hnd3)%NoDup_app.
      split; cbn [l_links l_due l_fired l_wait l_raised]; [|rewrite insert_length; exact Hlen| |].
      * intros i l Hi. destruct (decide (i = j)) as [->|Hij].
        { pose proof (eq_trans (eq_sym Hs) Hi) as E. injection E as <-. exists u'. cbn [l_links l_due l_fired l_raised]. rewrite Hres.
          assert (~ (0 < lit is_ip h + resolved es j)%nat) by (rewrite <- A4; exact Hf).
          split; [exact Hlook|]. split; [lia|]. split; [exact A3|]. split; [|lia].
          split; [lia|]. intros _. apply elem_of_app. right. left. }
        { apply (other_ok i l es (LUdpEvent j e) s); [auto|discriminate|congruence|apply list_lookup_insert_ne; auto|reflexivity| |reflexivity].
          rewrite elem_of_app, elem_of_list_singleton. tauto. }
      * rewrite app_assoc. apply NoDup_app. split; [exact Hnd|]. split; [|apply NoDup_singleton].
        intros i Hi. rewrite elem_of_list_singleton. intros ->. apply elem_of_app in Hi. tauto.
      * rewrite Hw, settle_settle; [reflexivity|]. intros i Hi. apply elem_of_app. auto.
  - apply Nat.ltb_ge in El. assert (n = 0)%nat by lia. unfold s'.
    split; cbn [l_links l_due l_fired l_wait l_raised]; [|rewrite insert_length; exact Hlen|exact Hnd|exact Hw].
    intros i l Hi. destruct (decide (i = j)) as [->|Hij].
    + pose proof (eq_trans (eq_sym Hs) Hi) as E. injection E as <-. exists u'. cbn [l_links l_due l_fired l_raised]. rewrite Hres.
      split; [exact Hlook|]. replace (resolved es j + n)%nat with (resolved es j) by lia. split; [lia|auto].
    + apply (other_ok i l es (LUdpEvent j e) s); [auto|discriminate|congruence|apply list_lookup_insert_ne; auto|reflexivity..].
Qed.

Lemma text_ok es s j t : ok es s -> ok (es ++ [LText j t]) (lstep N s (LText j t)).
Proof.
  intros Hok. pose proof Hok as [Hk Hlen Hnd Hw]. cbn [lstep].
  destruct (l_links s !! j) as [l0|] eqn:Ej.
  2:{ split; [|assumption..]. intros i l Hi. apply same_ok; [auto|discriminate|discriminate]. }
  split; cbn [l_links l_due l_fired l_wait l_raised]; [|rewrite insert_length; exact Hlen|exact Hnd|exact Hw].
  intros i l Hi. destruct (decide (i = j)) as [->|Hij].
  - assert (Hlook : forall x, <[j := x]> (l_links s) !! j = Some x) by (intros x; apply list_lookup_insert; eapply lookup_lt_Some, Ej).
    specialize (Hk j l Hi). destruct l as [[[|] h] p].
    + destruct Hk as (f & A1 & A2 & A3 & A4). rewrite Ej in A1. injection A1 as ->.
      assert (Hf : exists f', fst (link_write t (LTcp f)) = LTcp f' /\ tf_callback f' = tf_callback f).
      { cbn [link_write]. unfold tf_write, on_proto. destruct (tf_proto f) as [p0|]; [|exists f; auto].
        destruct (tp_write t p0) as [p1 r]. eexists. split; reflexivity. }
      destruct Hf as (f' & Hf1 & Hf2). exists f'. cbn [l_links l_due l_fired l_raised].
      rewrite Hf1, Hlook, Hf2, in_snoc. intuition congruence.
    + destruct Hk as (u & A1 & A2 & A3 & A4 & A5). rewrite Ej in A1. injection A1 as ->.
      exists (uc_write redirect_cfg (t, None) u). cbn [l_links l_due l_fired l_raised link_write fst].
      rewrite Hlook, resolved_app. change (resolved [LText j t] j) with 0%nat. rewrite Nat.add_0_r.
      split; [reflexivity|]. split; [|auto]. rewrite <- A2.
      pose proof (step_connects N redirect_cfg (EWrite (t, None)) u) as H. cbn [ustep fst resolutions flat_map app length] in H. unfold mod_ in H. cbn [fst] in H. lia.
  - apply (other_ok i l es (LText j t) s); [auto|discriminate|discriminate|apply list_lookup_insert_ne; auto|reflexivity..].
Qed.

Lemma links_history es : ok es (lrun N (links_new is_ip ls) es).
Proof.
  induction es as [|e es IH] using rev_ind; [apply new_ok|].
  unfold lrun. rewrite fold_left_app. change (fold_left (lstep N) es (links_new is_ip ls)) with (lrun N (links_new is_ip ls) es).
  cbn [fold_left]. destruct e; [apply connected_ok|apply run_ok|apply udp_ok|apply text_ok]; exact IH.
Qed.

(** redirect [i] has announced itself *)
Definition up (es : list levent) (i : nat) (tcp : bool) (h : str) : Prop :=
  if tcp then In (LConnected i) es else is_ip h = true \/ exists ip, In (LUdpEvent i (EResolved ip)) es.
Lemma ready_only es : l_wait (lrun N (links_new is_ip ls) es) = [] ->
  forall i (tcp : bool) (h : str) (p : Z), ls !! i = Some (tcp, h, p) -> up es i tcp h.
Proof.
  set (s := lrun N (links_new is_ip ls) es). pose proof (links_history es) as Hok. fold s in Hok. destruct Hok as [Hk Hlen Hnd Hw].
  rewrite Hw, settle_nil. intros H i tcp h p Hi. assert (Hf : i ∈ l_fired s).
  { apply H. apply elem_of_list_In, in_seq. assert (i < length ls)%nat by (eapply lookup_lt_Some, Hi). lia. }
  specialize (Hk i _ Hi). destruct tcp.
  - destruct Hk as (f & _ & _ & A & _). apply A. auto.
  - destruct Hk as (u & _ & _ & _ & A & _). apply A in Hf. unfold lit in Hf. cbn. destruct (is_ip h); [auto|].
    right. apply resolved_pos. lia.
Qed.
Lemma ready_when es : l_due (lrun N (links_new is_ip ls) es) = [] ->
  (forall i (tcp : bool) (h : str) (p : Z), ls !! i = Some (tcp, h, p) -> up es i tcp h) ->
  l_wait (lrun N (links_new is_ip ls) es) = [].
Proof.
  set (s := lrun N (links_new is_ip ls) es). intros Hd H. pose proof (links_history es) as Hok. fold s in Hok. destruct Hok as [Hk Hlen Hnd Hw].
  rewrite Hw, settle_nil. intros i Hi. apply elem_of_list_In, in_seq in Hi. destruct (lookup_lt_is_Some_2 ls i) as [[[tcp h] p] Hs]; [lia|].
  specialize (H _ _ _ _ Hs). specialize (Hk i _ Hs). destruct tcp.
  - destruct Hk as (f & _ & _ & A & _). apply A in H. rewrite Hd in H. destruct H as [H|H]; [inversion H|exact H].
  - destruct Hk as (u & _ & _ & _ & A & _). apply A. unfold lit. destruct H as [-> |H]; [lia|]. apply resolved_pos in H. lia.
Qed.
(** the reactor runs what is scheduled: then nothing is *)
Lemma drained s : l_due (lrun N s (repeat (LRun 0) (length (l_due s)))) = [].
Proof.
  remember (length (l_due s)) as n eqn:En. revert s En. induction n as [|n IH]; intros s En; cbn [repeat].
  - cbn. destruct (l_due s); [reflexivity|discriminate].
  - change (lrun N s (LRun 0 :: repeat (LRun 0) n)) with (lrun N (lstep N s (LRun 0)) (repeat (LRun 0) n)). apply IH.
    cbn [lstep]. destruct (l_due s) as [|i d] eqn:Ed; [discriminate|]. cbn [lookup list_lookup].
    rewrite (proj2 (fire_links i _)). cbn [l_due delete list_delete]. cbn in En. lia.
Qed.
Lemma raises es i (tcp : bool) (h : str) (p : Z) : ls !! i = Some (tcp, h, p) ->
  occ i (l_raised (lrun N (links_new is_ip ls) es)) =
    if tcp then 0%nat else (lit is_ip h + resolved es i - 1)%nat.
Proof.
  intros Hi. pose proof (links_history es) as [Hk _ _ _]. specialize (Hk i _ Hi). destruct tcp.
  - destruct Hk as (f & _ & _ & _ & A). exact A.
  - destruct Hk as (u & _ & _ & _ & _ & A). exact A.
Qed.
(** the client of a UDP redirect is told the same *)
Lemma told es i h p ip : ls !! i = Some (false, h, p) ->
  exists u, l_links (lrun N (links_new is_ip ls) es) !! i = Some (LUdp u) /\
    snd (ustep N redirect_cfg (EResolved ip) u) =
      (if (0 <? lit is_ip h + resolved es i)%nat then Exn AlreadyCalledError else Ok tt).
Proof.
  intros Hi. pose proof (links_history es) as [Hk _ _ _]. specialize (Hk i _ Hi).
  destruct Hk as (u & A1 & A2 & _). exists u. split; [exact A1|]. rewrite <- A2.
  cbn [ustep]. unfold host_resolved, bnd, mod_, run_connect. cbn. destruct (u_connects u); reflexivity.
Qed.
End facts.

(** ** The redirects of a configuration, in the order of its rules *)
Definition redirects_of (rws : list rule_text) : list (bool * str * str) := omap (fun r => redirect (snd r)) rws.
Definition same_redirect (r : bool * str * str) (l : lspec) : Prop :=
  r.1.1 = l.1.1 /\ r.1.2 = l.1.2 /\ int_text r.2 l.2.
Lemma built_redirects G j rws rs ls : built G true j rws rs ls -> Forall2 same_redirect (redirects_of rws) ls.
Proof.
  induction 1 as [|j cw tw c t add rws rs adds Hc Ht Hb IH]; [constructor|].
  assert (H : Forall2 same_redirect (match redirect tw with Some r => [r] | None => [] end) add).
  { inversion Ht; subst; cbn; try constructor; try discriminate; try constructor; repeat split; auto. }
  unfold redirects_of. cbn [omap list_omap snd]. destruct (redirect tw) as [r|].
  - change (Forall2 same_redirect ([r] ++ redirects_of rws) (add ++ adds)). apply Forall2_app; assumption.
  - inversion H; subst. exact IH.
Qed.
Lemma config_redirects G config rws ls rs : build_rules G true config [] = (ls, Ok rs) -> rules_of config rws ->
  Forall2 same_redirect (redirects_of rws) ls.
Proof.
  intros H Hr. apply build_rules_iff in H as (rws' & Hr' & Hb). rewrite (rules_of_fun _ _ _ Hr Hr').
  eapply built_redirects, Hb.
Qed.

Section config.
Context (G : engine) (config : str) (rws : list rule_text) (ls : list lspec) (rs : list (rule G)) (is_ip : str -> bool) (N : unet).
Context (Hb : build_rules G true config [] = (ls, Ok rs)) (Hr : rules_of config rws).
Lemma nth_link i tcp h port : redirects_of rws !! i = Some (tcp, h, port) ->
  exists p, ls !! i = Some (tcp, h, p) /\ int_text port p.
Proof.
  intros Hi. destruct (Forall2_lookup_l _ _ _ _ _ (config_redirects _ _ _ _ _ Hb Hr) Hi) as ([[tcp' h'] p] & Hl & E1 & E2 & E3).
  cbn in *. subst. eauto.
Qed.
Lemma config_ready_only es : l_wait (lrun N (links_new is_ip ls) es) = [] ->
  forall i (tcp : bool) (h port : str), redirects_of rws !! i = Some (tcp, h, port) -> up is_ip es i tcp h.
Proof. intros H i tcp h port Hi. destruct (nth_link _ _ _ _ Hi) as (p & Hl & _). eapply ready_only; eassumption. Qed.
Lemma config_ready_when es : l_due (lrun N (links_new is_ip ls) es) = [] ->
  (forall i (tcp : bool) (h port : str), redirects_of rws !! i = Some (tcp, h, port) -> up is_ip es i tcp h) ->
  l_wait (lrun N (links_new is_ip ls) es) = [].
Proof.
  intros Hd H. apply ready_when; [exact Hd|]. intros i tcp h p Hi.
  destruct (Forall2_lookup_r _ _ _ _ _ (config_redirects _ _ _ _ _ Hb Hr) Hi) as ([[tcp' h'] port] & Hl & E1 & E2 & E3).
  cbn in *. subst. eauto.
Qed.
Lemma config_raises es i (tcp : bool) (h port : str) : redirects_of rws !! i = Some (tcp, h, port) ->
  occ i (l_raised (lrun N (links_new is_ip ls) es)) =
    if tcp then 0%nat else ((if is_ip h then 1 else 0) + resolved es i - 1)%nat.
Proof. intros Hi. destruct (nth_link _ _ _ _ Hi) as (p & Hl & _). exact (raises is_ip ls N es i tcp h p Hl). Qed.
Lemma config_told es i (h port : str) ip : redirects_of rws !! i = Some (false, h, port) ->
  exists u, l_links (lrun N (links_new is_ip ls) es) !! i = Some (LUdp u) /\
    snd (ustep N redirect_cfg (EResolved ip) u) =
      (if (0 <? (if is_ip h then 1 else 0) + resolved es i)%nat then Exn AlreadyCalledError else Ok tt).
Proof. intros Hi. destruct (nth_link _ _ _ _ Hi) as (p & Hl & _). exact (told is_ip ls N es i h p ip Hl). Qed.
Lemma config_kind es i (tcp : bool) (h port : str) : redirects_of rws !! i = Some (tcp, h, port) ->
  exists p, int_text port p /\ ls !! i = Some (tcp, h, p) /\
    if tcp then exists f, l_links (lrun N (links_new is_ip ls) es) !! i = Some (LTcp f)
    else exists u, l_links (lrun N (links_new is_ip ls) es) !! i = Some (LUdp u).
Proof.
  intros Hi. destruct (nth_link _ _ _ _ Hi) as (p & Hl & Hp). exists p. split; [exact Hp|]. split; [exact Hl|].
  pose proof (lo_links _ _ _ _ (links_history is_ip ls N es) i _ Hl) as H. destruct tcp; destruct H as (x & H & _); eauto.
Qed.
End config.
