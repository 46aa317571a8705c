From Verif Require Import Base Report Slow SlowFacts.
From Coq Require Import Sorted.
Open Scope Z_scope.

Section facts.
Context {V : Type} (instance : str) (rejects : str -> V -> option exn).
Notation world := (world V).
Notation wrun := (wrun instance rejects).
Notation wstep := (wstep instance rejects).
Notation finish := (finish instance rejects).
Notation call := (call instance rejects).
Notation start := (start instance rejects).

Lemma none_due i (l : list (nat * nat * Z)) n : Forall (fun d => (snd (fst d) < n)%nat) l -> (n <= i)%nat -> dues i l = [].
Proof.
  intros H Hi. destruct (dues i l) as [|[id t] r] eqn:E; [reflexivity|]. assert (Hx : In (id, t) (dues i l)) by (rewrite E; left; reflexivity).
  apply dues_In in Hx. rewrite List.Forall_forall in H. specialize (H _ Hx). cbn in H. lia.
Qed.
Lemma none_open i (l : list nat) n : Forall (fun k => (k < n)%nat) l -> (n <= i)%nat -> opens i l = 0%nat.
Proof.
  intros H Hi. unfold opens. induction H as [|k l Hk _ IH]; [reflexivity|]. cbn. destruct (Nat.eqb_spec i k); [lia|exact IH].
Qed.
Lemma none_made i (l : list tcall) n : Forall (fun c => (a_task c < n)%nat) l -> (n <= i)%nat -> made i l = [].
Proof.
  intros H Hi. unfold made. induction H as [|k l Hk _ IH]; [reflexivity|]. cbn. destruct (Nat.eqb_spec (a_task k) i); [lia|exact IH].
Qed.
Lemma each_ok (f : nat -> world -> world * res unit) (P : world -> Prop) is : (forall i w, P w -> P (fst (f i w))) -> forall w, P w -> P (fst (each f is w)).
Proof.
  intros Hf. induction is as [|i is IH]; intros w Hw; cbn [each]; [exact Hw|]. pose proof (Hf i w Hw) as H. destruct (f i w) as [w1 [x|e]]; [apply IH, H|exact H].
Qed.
Lemma winv_now (w : world) dt : winv w -> 0 <= dt ->
  winv (World (y_now w + dt) (y_running w) (y_tasks w) (y_due w) (y_next w) (y_open w) (y_calls w) (y_reports w) (y_logged w)).
Proof.
  intros [Hg Hi] Hdt. split; [destruct Hg; split; assumption|]. intros i t Ht. cbn in Ht. destruct (Hi i t Ht) as [[B1 B2 B3 B4] Hs]. split; [split|]; cbn; auto.
  - intros Hon. destruct (B1 Hon) as (? & ? & ?). split; [assumption|]. split; [lia|assumption].
  - eapply Forall_impl; [exact B2|]. cbn. intros. lia.
  - unfold shape in *. destruct (l_on (t_loop t)); [|exact Hs]. destruct Hs as [H|(H1 & H2 & H3 & H4)]; [left; exact H|right]. split; [exact H1|]. split; [exact H2|]. split; [exact H3|].
    intros Hp. specialize (H4 Hp). lia.
Qed.
Lemma winv_on (w : world) b : winv w -> winv (set_on b w).
Proof. intros [Hg Hi]. split; [destruct Hg; split; assumption|exact Hi]. Qed.
Lemma deleted {A} (l : list A) j x : l !! j = Some x -> exists l1 l2, l = l1 ++ x :: l2 /\ delete j l = l1 ++ l2.
Proof.
  intros H. exists (take j l), (drop (S j) l). split; [symmetry; apply take_drop_middle, H|]. rewrite delete_take_drop. reflexivity.
Qed.
Lemma wstep_ok e (w : world) : winv w -> (e = WStart -> quiet w) -> winv (fst (wstep e w)).
Proof.
  intros Hw Hq. destruct e as [wr int o| | |dt|j o|j o]; cbn [Slow.wstep].
  - set (w1 := World _ _ (y_tasks w ++ _) _ _ _ _ _ _). pose proof Hw as [Hg Hi]. pose proof Hg as [G1 G2 G3 G4 G5].
    assert (Hw1 : winv w1).
    { split.
      - split; cbn; rewrite ?app_length; auto; (eapply Forall_impl; [eassumption|]; cbn; intros; lia).
      - intros i t Ht. cbn in Ht. apply lookup_app_Some in Ht as [Ht|[Hl Ht]]; [exact (Hi i t Ht)|].
        apply list_lookup_singleton_Some in Ht as [_ <-]. cbn [y_now y_due y_open y_calls w1].
        rewrite (none_made i _ _ G5 Hl), (none_due i _ _ G3 Hl), (none_open i _ _ G4 Hl). split; [split; cbn; [discriminate|constructor|intros; constructor|intros; constructor]|].
        unfold shape. cbn. auto. }
    destruct (y_running w); [|exact Hw1]. apply start_ok; [exact Hw1| |].
    + intros t _ _. apply (none_open _ _ _ G4). lia.
    + intros _. apply (none_made _ _ _ G5). lia.
  - specialize (Hq eq_refl).
    assert (H : winv (fst (each (fun i => start i None) (seq 0 (length (y_tasks w))) (set_on true w))) /\ quiet (fst (each (fun i => start i None) (seq 0 (length (y_tasks w))) (set_on true w)))); [|apply H].
    apply (each_ok (fun i => start i None) (fun w => winv w /\ quiet w)); [|split; [apply winv_on, Hw|exact Hq]].
    clear. intros i w [Hw Hq]. split; [apply start_ok; [exact Hw|apply Hq|congruence]|]. unfold Slow.start.
    destruct (y_tasks w !! i) as [t|] eqn:Ht; [|exact Hq]. destruct (l_on (t_loop t)) eqn:Hon; [exact Hq|]. destruct (t_int t <? 0); [exact Hq|]. cbn [fst].
    intros j t' Hj Hoff.
    assert (H : y_tasks w !! j = Some t' /\ y_open (reschedule i (STask (t_wrap t) (t_int t) (Loop true (l_call (t_loop t)) (y_now w) (y_now w)))
      (set_loop i (Loop true (l_call (t_loop t)) (y_now w) (y_now w)) w)) = y_open w).
    { unfold reschedule in *. cbn [t_int] in *.
      destruct (t_int t =? 0); cbn [y_tasks y_open later set_loop] in *; (split; [|reflexivity]);
        rewrite !alter_tasks in Hj; (destruct (Nat.eqb_spec i j) as [<-|Hne]; [rewrite Ht in Hj; cbn in Hj; injection Hj as <-; discriminate Hoff|exact Hj]). }
    destruct H as [H ->]. apply (Hq j t' H Hoff).
  - pose proof (each_ok (@stop V) winv (seq 0 (length (y_tasks w))) (fun i w => stop_ok instance rejects i w) w Hw) as H.
    destruct (each stop _ w) as [w1 [x|e]]; cbn [fst] in *; [apply winv_on, H|exact H].
  - apply winv_now; [exact Hw|lia].
  - destruct (y_due w !! j) as [[[id i] t]|] eqn:Hj; [|exact Hw]. destruct (Z.leb_spec t (y_now w)) as [Ht|Ht]; [|exact Hw]. cbn [fst].
    destruct (deleted _ _ _ Hj) as (l1 & l2 & Hl & ->). pose proof Hw as [[G1 G2 G3 G4 G5] Hi].
    assert (Hlen : (i < length (y_tasks w))%nat). { rewrite Hl in G3. apply Forall_app in G3 as [_ G3]. inversion G3; subst. assumption. }
    destruct (lookup_lt_is_Some_2 _ _ Hlen) as [tk Htk]. destruct (Hi i tk Htk) as [Hb Hs].
    assert (Hd : dues i (y_due w) = dues i l1 ++ (id, t) :: dues i l2).
    { rewrite Hl, dues_app. cbn [dues flat_map]. rewrite Nat.eqb_refl. reflexivity. }
    unfold shape in Hs. rewrite Hd in Hs.
    destruct (l_on (t_loop tk)) eqn:Hon; [|destruct Hs as (Hs & _); destruct (dues i l1); discriminate].
    destruct Hs as [(id' & d & Hs & Hop & Hc & Hdue)|(Hs & _)]; [|destruct (dues i l1); discriminate].
    assert (H12 : dues i l1 = [] /\ dues i l2 = [] /\ d = t).
    { destruct (dues i l1) as [|x [|y r]]; cbn in Hs; [injection Hs as <- <- ->; auto|discriminate|discriminate]. }
    destruct H12 as (H1 & H2 & ->).
    eapply (call_ok instance rejects i tk); [|exact Ht|].
    + split; [|split; [|split; [|split; [|split; [|split]]]]]; auto.
      * split; cbn; auto; rewrite ?Hl in *.
        -- rewrite map_app in *. cbn [map] in G1. apply NoDup_remove_1 in G1. exact G1.
        -- apply Forall_app in G2 as [Ga Gb]. inversion Gb; subst. apply Forall_app. auto.
        -- apply Forall_app in G3 as [Ga Gb]. inversion Gb; subst. apply Forall_app. auto.
      * intros k Hk t' Hk'. cbn in Hk'. cbn [y_now y_due y_open y_calls set_due]. destruct (Hi k t' Hk') as [Hb' Hs']. split; [exact Hb'|].
        rewrite Hl, dues_app in Hs'. cbn [dues flat_map] in Hs'. destruct (Nat.eqb_spec i k) as [->|_]; [contradiction|]. cbn [app] in Hs'. rewrite dues_app. exact Hs'.
      * cbn [y_due set_due]. rewrite dues_app, H1, H2. reflexivity.
      * intros _ Hp. cbn. destruct (Hdue Hp) as [<- _]. exact Ht.
    + intros Hp. cbn [y_calls set_due]. destruct (Hdue Hp) as [-> Hf]. split; [exact Hf|]. apply (b_on _ _ _ Hb Hon). exact Hp.
  - destruct (y_open w !! j) as [i|] eqn:Hj; [|exact Hw]. cbn [fst].
    destruct (deleted _ _ _ Hj) as (l1 & l2 & Hl & ->). pose proof Hw as [[G1 G2 G3 G4 G5] Hi].
    assert (Hlen : (i < length (y_tasks w))%nat). { rewrite Hl in G4. apply Forall_app in G4 as [_ G4]. inversion G4; subst. assumption. }
    destruct (lookup_lt_is_Some_2 _ _ Hlen) as [tk Htk]. destruct (Hi i tk Htk) as [Hb Hs].
    assert (Ho : opens i (y_open w) = (opens i l1 + S (opens i l2))%nat).
    { rewrite Hl, opens_app. f_equal. unfold opens. cbn [List.filter]. rewrite Nat.eqb_refl. reflexivity. }
    unfold shape in Hs. rewrite Ho in Hs.
    assert (Hx : dues i (y_due w) = [] /\ l_call (t_loop tk) = None /\ (opens i l1 + opens i l2 = 0)%nat /\ (l_on (t_loop tk) = true -> 0 < t_int tk -> l_expect (t_loop tk) <= y_now w)).
    { destruct (l_on (t_loop tk)); [destruct Hs as [(? & ? & _ & ? & _)|(? & ? & ? & ?)]; [lia|]|destruct Hs as (? & ? & ?)]; repeat (split; [assumption || lia|]); auto. discriminate. }
    destruct Hx as (X1 & X2 & X3 & X4).
    eapply (finish_ok instance rejects i tk); [|exact X2].
    split; [|split; [|split; [|split; [|split; [|split]]]]]; auto.
    + split; cbn; auto. rewrite Hl in G4. apply Forall_app in G4 as [Ga Gb]. inversion Gb; subst. apply Forall_app. auto.
    + intros k Hk t' Hk'. cbn in Hk'. cbn [y_now y_due y_open y_calls set_open]. destruct (Hi k t' Hk') as [Hb' Hs']. split; [exact Hb'|].
      rewrite Hl, opens_app in Hs'. rewrite opens_app. unfold opens at 2 in Hs'. cbn [List.filter] in Hs'. destruct (Nat.eqb_spec k i) as [->|_]; [contradiction|]. exact Hs'.
    + cbn [y_open set_open]. rewrite opens_app. exact X3.
Qed.

(** ** histories *)
(** the service is never started while the function of a stopped task has not come to an end *)
Definition calm (h : list (wevent V)) (now : Z) : Prop := forall h1 h2, h = h1 ++ WStart :: h2 -> quiet (wrun h1 (world_init now)).
Lemma wrun_snoc h e w : wrun (h ++ [e]) w = fst (wstep e (wrun h w)).
Proof. unfold Slow.wrun. rewrite fold_left_app. reflexivity. Qed.
Lemma calm_prefix h h' now : calm (h ++ h') now -> calm h now.
Proof. intros H h1 h2 E. apply (H h1 (h2 ++ h')). rewrite E, <- app_assoc. reflexivity. Qed.
Lemma winv_init now : winv (V := V) (world_init now).
Proof. split; [split; constructor|]. intros i t Ht. destruct i; discriminate. Qed.
Lemma wrun_ok h now : calm h now -> winv (wrun h (world_init now)).
Proof.
  induction h as [|e h IH] using rev_ind; intros Hc; [apply winv_init|]. rewrite wrun_snoc. apply wstep_ok.
  - apply IH. eapply calm_prefix, Hc.
  - intros ->. apply (Hc h []). reflexivity.
Qed.

(** ** one call at a time *)
Definition delayed (i : nat) (w : world) : list (nat * nat * Z) := List.filter (fun d => Nat.eqb (snd (fst d)) i) (y_due w).
Lemma dues_delayed i (w : world) : map (fun d => (fst (fst d), snd d)) (delayed i w) = dues i (y_due w) /\ Forall (fun d => snd (fst d) = i) (delayed i w).
Proof.
  unfold delayed, dues. induction (y_due w) as [|[[id k] t] l [IH1 IH2]]; [split; constructor|]. cbn [List.filter flat_map fst snd].
  destruct (Nat.eqb_spec k i) as [->|_]; [|auto]. cbn. rewrite IH1. auto.
Qed.
Lemma opens_count i l : opens i l = count_occ Nat.eq_dec l i.
Proof. unfold opens. induction l as [|k l IH]; [reflexivity|]. cbn. destruct (Nat.eqb_spec i k), (Nat.eq_dec k i); cbn; congruence. Qed.
Lemma one_at_a_time h now i t : calm h now -> let w := wrun h (world_init now) in y_tasks w !! i = Some t ->
  if l_on (t_loop t) then
    (exists id d, delayed i w = [(id, i, d)] /\ l_call (t_loop t) = Some id /\ count_occ Nat.eq_dec (y_open w) i = 0%nat) \/
    (delayed i w = [] /\ count_occ Nat.eq_dec (y_open w) i = 1%nat)
  else delayed i w = [] /\ (count_occ Nat.eq_dec (y_open w) i <= 1)%nat.
Proof.
  intros Hc w Ht. destruct (proj2 (wrun_ok h now Hc) i t Ht) as [_ Hs]. fold w in Hs. destruct (dues_delayed i w) as [H1 H2]. unfold shape in Hs.
  rewrite opens_count in Hs. rewrite <- H1 in Hs. destruct (l_on (t_loop t)).
  - destruct Hs as [(id & d & Hd & Ho & Hl & _)|(Hd & Ho & _)]; [left|right; split; [apply map_eq_nil in Hd; exact Hd|exact Ho]].
    exists id, d. destruct (delayed i w) as [|[[a k] b] [|]]; try discriminate Hd. injection Hd as -> ->. inversion H2; subst. cbn. auto.
  - destruct Hs as (Hd & Ho & _). apply map_eq_nil in Hd. auto.
Qed.

(** ** after a stop *)
Definition silent (w : world) : Prop := y_due w = [] /\ y_running w = false /\ Forall (fun t => l_on (t_loop t) = false) (y_tasks w).
Lemma stop_done i (w : world) w1 : Slow.stop i w = (w1, Ok tt) -> length (y_tasks w1) = length (y_tasks w) /\
  (forall j, j <> i -> y_tasks w1 !! j = y_tasks w !! j) /\ (forall t, y_tasks w1 !! i = Some t -> l_on (t_loop t) = false).
Proof.
  unfold Slow.stop. destruct (y_tasks w !! i) as [t|] eqn:Ht; [|intros [= <-]; split; [reflexivity|split; [reflexivity|congruence]]].
  destruct (l_on (t_loop t)) eqn:Hon; [|discriminate]. intros [= <-].
  assert (H : forall l, l_on l = false -> let w1 := set_loop i l w in length (y_tasks w1) = length (y_tasks w) /\
    (forall j, j <> i -> y_tasks w1 !! j = y_tasks w !! j) /\ (forall t, y_tasks w1 !! i = Some t -> l_on (t_loop t) = false)).
  { intros l Hl. cbn. split; [apply alter_length|]. split.
    - intros j Hj. rewrite alter_tasks. destruct (Nat.eqb_spec i j) as [->|_]; [contradiction|reflexivity].
    - intros t'. rewrite alter_tasks, Nat.eqb_refl, Ht. cbn. intros [= <-]. exact Hl. }
  destruct (l_call (t_loop t)); apply H; reflexivity.
Qed.
Lemma stops_done n : forall k (w : world) w1, each stop (seq k n) w = (w1, Ok tt) -> length (y_tasks w1) = length (y_tasks w) /\
  (forall j, (j < k)%nat -> y_tasks w1 !! j = y_tasks w !! j) /\
  (forall j t, (k <= j < k + n)%nat -> y_tasks w1 !! j = Some t -> l_on (t_loop t) = false).
Proof.
  induction n as [|n IH]; intros k w w1; cbn [seq each]; [intros [= <-]; split; [reflexivity|]; split; [reflexivity|intros; lia]|].
  destruct (Slow.stop k w) as [w2 [[]|e]] eqn:E; [|discriminate]. intros H. destruct (stop_done k w w2 E) as (S1 & S2 & S3). destruct (IH (S k) w2 w1 H) as (I1 & I2 & I3).
  split; [congruence|]. split.
  - intros j Hj. rewrite I2 by lia. apply S2. lia.
  - intros j t Hj Ht. destruct (decide (j = k)) as [->|Hne]; [rewrite I2 in Ht by lia; eauto|]. apply (I3 j t); [lia|exact Ht].
Qed.
Lemma stopped_silent h now w1 : calm h now -> wstep WStop (wrun h (world_init now)) = (w1, Ok tt) -> silent w1.
Proof.
  intros Hc. pose proof (wrun_ok h now Hc) as Hw. set (w := wrun h (world_init now)) in *. cbn [Slow.wstep]. intros Hs.
  pose proof (wstep_ok WStop w Hw ltac:(discriminate)) as Hw1. cbn [Slow.wstep] in Hw1.
  destruct (each stop (seq 0 (length (y_tasks w))) w) as [w2 [[]|e]] eqn:E; [|discriminate]. injection Hs as <-. cbn [fst] in Hw1.
  destruct (stops_done _ _ _ _ E) as (S1 & _ & S3).
  assert (Hoff : forall i t, y_tasks w2 !! i = Some t -> l_on (t_loop t) = false).
  { intros i t Ht. apply (S3 i t); [|exact Ht]. pose proof (lookup_lt_Some _ _ _ Ht). lia. }
  split; [|split; [reflexivity|]].
  - cbn. destruct (y_due w2) as [|[[id i] d] l] eqn:Ed; [reflexivity|]. exfalso. destruct Hw1 as [Hg Hi].
    assert (Hlen : (i < length (y_tasks w2))%nat) by (pose proof (g_due _ Hg) as G; cbn in G; rewrite Ed in G; inversion G; assumption).
    destruct (lookup_lt_is_Some_2 _ _ Hlen) as [t Ht]. destruct (Hi i t Ht) as [_ Hsh]. unfold shape in Hsh. rewrite (Hoff i t Ht) in Hsh. destruct Hsh as [Hd _].
    cbn in Hd. rewrite Ed in Hd. cbn in Hd. rewrite Nat.eqb_refl in Hd. discriminate.
  - apply Forall_lookup. exact Hoff.
Qed.
Lemma off_tasks (ts : list stask) i (l : loop) : Forall (fun t => l_on (t_loop t) = false) ts -> l_on l = false ->
  Forall (fun t => l_on (t_loop t) = false) (alter (fun t => STask (t_wrap t) (t_int t) l) i ts).
Proof.
  intros H Hl. apply Forall_lookup. intros j t. rewrite alter_tasks. rewrite Forall_lookup in H. destruct (Nat.eqb i j); [|apply H].
  destruct (ts !! j); [|discriminate]. cbn. intros [= <-]. exact Hl.
Qed.
Lemma silent_step e (w : world) : silent w -> e <> WStart -> silent (fst (wstep e w)) /\ y_calls (fst (wstep e w)) = y_calls w.
Proof.
  intros Hs Hne. pose proof Hs as (H1 & H2 & H3). destruct e as [wr int o| | |dt|j o|j o]; cbn [Slow.wstep]; [|contradiction|..].
  - rewrite H2. split; [|reflexivity]. split; [exact H1|]. split; [reflexivity|]. cbn. apply Forall_app. split; [exact H3|]. repeat constructor.
  - assert (H : fst (each stop (seq 0 (length (y_tasks w))) w) = w).
    { destruct (length (y_tasks w)) as [|n] eqn:El; [reflexivity|]. cbn [seq each]. unfold Slow.stop at 1.
      destruct (y_tasks w !! 0%nat) as [t|] eqn:Et; [|apply lookup_ge_None in Et; lia]. rewrite Forall_lookup in H3. rewrite (H3 _ _ Et). reflexivity. }
    destruct (each stop _ w) as [w1 [x|e]]; cbn [fst] in *; subst w1; [|auto]. split; [|reflexivity]. split; [exact H1|]. split; [reflexivity|exact H3].
  - split; [|reflexivity]. split; [exact H1|]. split; [exact H2|exact H3].
  - rewrite H1. cbn. auto.
  - destruct (y_open w !! j) as [i|]; [|cbn; auto]. cbn [fst].
    assert (Hk : forall w', silent w' -> silent (call_back i w') /\ y_calls (call_back i w') = y_calls w').
    { intros w' Hw'. unfold call_back. destruct (y_tasks w' !! i) as [t|] eqn:Et; [|auto]. pose proof Hw' as (_ & _ & H). rewrite Forall_lookup in H. rewrite (H _ _ Et). auto. }
    assert (Ho : forall l, silent (set_open l w)) by (intros l; split; [exact H1|split; [exact H2|exact H3]]).
    assert (Hr : forall l r e, silent (add_reports r e (set_open l w))) by (intros l r e; split; [exact H1|split; [exact H2|exact H3]]).
    unfold Slow.finish. destruct (y_tasks (set_open _ w) !! i) as [t|] eqn:Et; [|split; [apply Ho|reflexivity]].
    destruct (t_wrap t); destruct o as [items|e].
    + destruct (report_metrics instance rejects items) as [r e]. apply (Hk _ (Hr _ r _)).
    + apply (Hk _ (Hr _ [] [e])).
    + apply (Hk _ (Ho _)).
    + unfold err_back. rewrite Et. split; [|reflexivity]. split; [exact H1|]. split; [exact H2|]. apply off_tasks; [exact H3|reflexivity].
Qed.
Lemma silent_run h' : forall w, silent w -> ~ In WStart h' -> y_calls (wrun h' w) = y_calls w.
Proof.
  induction h' as [|e h' IH]; intros w Hs Hn; [reflexivity|]. destruct (silent_step e w Hs ltac:(intros ->; apply Hn; left; reflexivity)) as [Hs' Hc].
  cbn. change (fold_left _ h' ?x) with (wrun h' x). rewrite IH; [exact Hc|exact Hs'|]. intros H. apply Hn. right. exact H.
Qed.

(** ** when the calls are made *)
Lemma made_In i (l : list tcall) a : In a l -> a_task a = i -> In a (made i l).
Proof. intros H E. apply List.filter_In. split; [exact H|]. rewrite E. apply Nat.eqb_refl. Qed.
Lemma on_grid h now i t a : calm h now -> let w := wrun h (world_init now) in y_tasks w !! i = Some t -> 0 < t_int t ->
  In a (y_calls w) -> a_task a = i -> a_due a <= a_at a <= y_now w /\ exists k, 0 <= k /\ a_due a = a_start a + k * t_int t.
Proof.
  intros Hc w Ht Hp Ha E. destruct (proj2 (wrun_ok h now Hc) i t Ht) as [Hb _]. fold w in Hb. apply (made_In i) in Ha; [|exact E].
  pose proof (b_grid _ _ _ Hb Hp) as Hgr. pose proof (b_past _ _ _ Hb) as Hpast. rewrite List.Forall_forall in Hgr, Hpast. destruct (Hgr a Ha) as [H1 H2].
  pose proof (Hpast a Ha). split; [lia|exact H2].
Qed.
Lemma ss_middle {A} (R : A -> A -> Prop) l1 a l2 b l3 : StronglySorted R (l1 ++ a :: l2 ++ b :: l3) -> R a b.
Proof.
  induction l1 as [|x l1 IH]; cbn; intros H; inversion H; subst; [|auto]. rewrite List.Forall_forall in H3. apply H3. apply in_or_app. right. left. reflexivity.
Qed.
Lemma apart h now i t l1 a l2 b l3 : calm h now -> let w := wrun h (world_init now) in y_tasks w !! i = Some t -> 0 < t_int t ->
  y_calls w = l1 ++ a :: l2 ++ b :: l3 -> a_task a = i -> a_task b = i -> a_at a < a_due b.
Proof.
  intros Hc w Ht Hp Hl Ea Eb. destruct (proj2 (wrun_ok h now Hc) i t Ht) as [Hb _]. fold w in Hb.
  pose proof (b_sorted _ _ _ Hb Hp) as Hs. rewrite Hl, made_app in Hs. cbn [made List.filter] in Hs. rewrite Ea, Nat.eqb_refl in Hs.
  change (List.filter (fun c => Nat.eqb (a_task c) i) (l2 ++ b :: l3)) with (made i (l2 ++ b :: l3)) in Hs. rewrite made_app in Hs. cbn [made List.filter] in Hs.
  rewrite Eb, Nat.eqb_refl in Hs. exact (ss_middle (fun a b => a_at a < a_due b) _ _ _ _ _ Hs).
Qed.
(** the calls of one start are at least an interval apart *)
Lemma spaced_calls int s now : 0 < int -> forall l : list tcall, l <> [] -> StronglySorted (fun a b => a_at a < a_due b) l ->
  Forall (fun a => a_due a <= a_at a /\ exists k, 0 <= k /\ a_due a = s + k * int) l -> Forall (fun a => a_at a <= now) l ->
  exists a k, hd_error l = Some a /\ a_due a = s + k * int /\ 0 <= k /\ (k + (Z.of_nat (length l) - 1)) * int <= now - s.
Proof.
  intros Hp l. induction l as [|a l IH]; [contradiction|]. intros _ Hs Hg Hn. inversion Hs as [|? ? Hs1 Hs2]; subst. inversion Hg as [|? ? Hg1 Hg2]; subst. inversion Hn as [|? ? Hn1 Hn2]; subst.
  destruct Hg1 as [Ha (k & Hk & Hd)]. exists a, k. split; [reflexivity|]. split; [exact Hd|]. split; [exact Hk|]. destruct l as [|b l].
  - cbn. lia.
  - destruct (IH ltac:(discriminate) Hs1 Hg2 Hn2) as (b' & k' & [= <-] & Hd' & Hk' & Hle). inversion Hs2 as [|? ? Hab _]; subst.
    assert (k < k') by nia. cbn [length] in *. nia.
Qed.
Lemma filter_two {A} (f g : A -> bool) l : List.filter (fun a => f a && g a) l = List.filter g (List.filter f l).
Proof. induction l as [|c cs IH]; [reflexivity|]. cbn. destruct (f c); cbn; [destruct (g c)|]; rewrite IH; reflexivity. Qed.
Lemma rate h now i t s : calm h now -> let w := wrun h (world_init now) in y_tasks w !! i = Some t -> 0 < t_int t ->
  let n := length (List.filter (fun a => Nat.eqb (a_task a) i && (a_start a =? s)) (y_calls w)) in
  n <> 0%nat -> (Z.of_nat n - 1) * t_int t <= y_now w - s.
Proof.
  intros Hc w Ht Hp n Hn. destruct (proj2 (wrun_ok h now Hc) i t Ht) as [[_ Hb2 Hb3 Hb4] _]. fold w in Hb2, Hb3, Hb4.
  set (l := List.filter (fun a => a_start a =? s) (made i (y_calls w))).
  assert (Hl : List.filter (fun a => Nat.eqb (a_task a) i && (a_start a =? s)) (y_calls w) = l) by apply filter_two.
  assert (Hss : forall (R : tcall -> tcall -> Prop) f l, StronglySorted R l -> StronglySorted R (List.filter f l)).
  { intros R f l0 H. induction H as [|a l0 H IH Hf]; cbn; [constructor|]. destruct (f a); [|exact IH]. constructor; [exact IH|].
    apply List.Forall_forall. intros x Hx. apply List.filter_In in Hx as [Hx _]. rewrite List.Forall_forall in Hf. auto. }
  unfold n in *. rewrite Hl in *.
  destruct (spaced_calls (t_int t) s (y_now w) Hp l) as (a & k & _ & _ & Hk & Hle).
  - intros E. rewrite E in Hn. apply Hn. reflexivity.
  - apply Hss, Hb3, Hp.
  - apply List.Forall_forall. intros x Hx. apply List.filter_In in Hx as [Hx E]. apply Z.eqb_eq in E. specialize (Hb4 Hp). rewrite List.Forall_forall in Hb4. rewrite <- E. auto.
  - apply List.Forall_forall. intros x Hx. apply List.filter_In in Hx as [Hx _]. rewrite List.Forall_forall in Hb2. auto.
  - nia.
Qed.

(** ** the next call is at the next point of the grid *)
Definition ahead (w0 w : world) : Prop :=
  y_now w = y_now w0 /\ (forall i t, y_tasks w !! i = Some t -> exists t0, y_tasks w0 !! i = Some t0 /\ t_int t0 = t_int t) /\
  forall id i d t, In (id, i, d) (y_due w) -> ~ In (id, i, d) (y_due w0) -> y_tasks w !! i = Some t -> 0 < t_int t -> y_now w < d <= y_now w + t_int t.
Lemma due_dec (x : nat * nat * Z) l : {In x l} + {~ In x l}.
Proof. apply in_dec. intros a b. destruct (decide (a = b)); [left|right]; assumption. Qed.
Lemma ahead_trans w0 w1 w2 : ahead w0 w1 -> ahead w1 w2 -> ahead w0 w2.
Proof.
  intros (A1 & A2 & A3) (B1 & B2 & B3). split; [congruence|]. split.
  - intros i t Ht. destruct (B2 i t Ht) as (t1 & H1 & E1). destruct (A2 i t1 H1) as (t0 & H0 & E0). exists t0. split; [exact H0|congruence].
  - intros id i d t Hd Hn Ht Hp. destruct (B2 i t Ht) as (t1 & H1 & E1). destruct (due_dec (id, i, d) (y_due w1)) as [H|H]; [|eauto].
    rewrite B1, <- E1. apply (A3 id i d t1 H Hn H1). lia.
Qed.
Lemma ahead_sub (w0 w : world) : y_now w = y_now w0 -> y_tasks w = y_tasks w0 -> incl (y_due w) (y_due w0) -> ahead w0 w.
Proof. intros H1 H2 H3. split; [exact H1|]. rewrite H2. split; [eauto|]. intros id i d t H Hn. exfalso. auto. Qed.
Lemma ahead_loop (w : world) i l : ahead w (set_loop i l w).
Proof.
  split; [reflexivity|]. split.
  - intros j t. cbn. rewrite alter_tasks. destruct (Nat.eqb i j); [|eauto]. destruct (y_tasks w !! j) as [t0|]; [|discriminate]. cbn. intros [= <-]. exists t0. auto.
  - intros id j d t H Hn. exfalso. auto.
Qed.
Lemma ahead_refl (w : world) : ahead w w.
Proof. apply ahead_sub; [reflexivity..|]. intros x H. exact H. Qed.
Lemma ahead_reschedule i t (w : world) : y_tasks w !! i = Some t -> (0 < t_int t -> l_expect (t_loop t) <= y_now w) -> ahead w (reschedule i t w).
Proof.
  intros Ht He. unfold reschedule.
  assert (H : forall l at_, (0 < t_int t -> y_now w < at_ <= y_now w + t_int t) -> ahead w (later i at_ (set_loop i l w))).
  { intros l at_ Ha. destruct (ahead_loop w i l) as (A1 & A2 & _). split; [reflexivity|]. split; [exact A2|]. intros id j d t' Hd Hn Ht' Hp. cbn in *.
    apply in_app_or in Hd as [Hd|[[= <- <- <-]|[]]]; [contradiction|]. destruct (A2 i t' Ht') as (t0 & H0 & E0). rewrite Ht in H0. injection H0 as <-. rewrite <- E0 in *. auto. }
  destruct (Z.eqb_spec (t_int t) 0) as [Hz|Hz]; apply H; intros Hp; [lia|].
  destruct (next_time_spec (y_now w) (t_int t) (l_expect (t_loop t)) Hp (He Hp)) as (k & _ & Hk). exact Hk.
Qed.
Definition expected (i : nat) (w : world) : Prop := forall t, y_tasks w !! i = Some t -> l_on (t_loop t) = true -> 0 < t_int t -> l_expect (t_loop t) <= y_now w.
Lemma ahead_call_back i (w : world) : expected i w -> ahead w (call_back i w).
Proof.
  intros He. unfold call_back. destruct (y_tasks w !! i) as [t|] eqn:Et; [|apply ahead_refl]. destruct (l_on (t_loop t)) eqn:Eo; [|apply ahead_refl].
  apply ahead_reschedule; [exact Et|]. intros Hp. exact (He t Et Eo Hp).
Qed.
Lemma ahead_finish i o (w : world) : expected i w -> ahead w (finish i o w).
Proof.
  intros He. unfold Slow.finish. destruct (y_tasks w !! i) as [t|] eqn:Et; [|apply ahead_refl].
  assert (H : forall r e, ahead w (call_back i (add_reports r e w))).
  { intros r e. eapply ahead_trans; [|apply ahead_call_back; exact He]. apply ahead_sub; [reflexivity..|]. intros x H. exact H. }
  destruct (t_wrap t); destruct o as [items|e].
  - destruct (report_metrics instance rejects items) as [r e]. apply H.
  - apply H.
  - apply ahead_call_back, He.
  - unfold err_back. rewrite Et. apply ahead_loop.
Qed.
Lemma ahead_call i due o (w : world) : expected i w -> ahead w (call i due o w).
Proof.
  intros He. unfold Slow.call. destruct (y_tasks w !! i) as [t|] eqn:Et; [|apply ahead_refl].
  set (w1 := add_call _ _). assert (H1 : ahead w w1).
  { eapply ahead_trans; [apply ahead_loop|]. apply ahead_sub; [reflexivity..|]. intros x H. exact H. }
  destruct o as [r|].
  - eapply ahead_trans; [exact H1|]. apply ahead_finish. intros t' Ht'. cbn in Ht'. rewrite alter_tasks, Nat.eqb_refl, Et in Ht'. cbn in Ht'. injection Ht' as <-. exact (He t Et).
  - eapply ahead_trans; [exact H1|]. apply ahead_sub; [reflexivity..|]. intros x H. exact H.
Qed.
Lemma ahead_start i first (w : world) : ahead w (fst (start i first w)).
Proof.
  unfold Slow.start. destruct (y_tasks w !! i) as [t|] eqn:Et; [|apply ahead_refl]. destruct (l_on (t_loop t)); [apply ahead_refl|].
  destruct (t_int t <? 0); [apply ahead_refl|]. cbn [fst]. set (l := Loop true _ _ _).
  assert (Hi : y_tasks (set_loop i l w) !! i = Some (STask (t_wrap t) (t_int t) l)) by (cbn; rewrite alter_tasks, Nat.eqb_refl, Et; reflexivity).
  destruct first as [o|]; (eapply ahead_trans; [apply ahead_loop|]).
  - apply ahead_call. intros t' Ht'. rewrite Hi in Ht'. injection Ht' as <-. cbn. lia.
  - apply ahead_reschedule; [exact Hi|]. cbn. lia.
Qed.
Lemma ahead_stop i (w : world) : ahead w (fst (stop i w)).
Proof.
  unfold Slow.stop. destruct (y_tasks w !! i) as [t|] eqn:Et; [|apply ahead_refl]. destruct (l_on (t_loop t)); [|apply ahead_refl]. cbn [fst].
  destruct (l_call (t_loop t)); [|apply ahead_loop]. eapply ahead_trans; [apply ahead_loop|]. apply ahead_sub; [reflexivity..|]. intros x H. cbn in H. apply List.filter_In in H as [H _]. exact H.
Qed.
Lemma ahead_step e (w : world) id i d t : winv w -> let w1 := fst (wstep e w) in In (id, i, d) (y_due w1) -> ~ In (id, i, d) (y_due w) -> y_tasks w1 !! i = Some t -> 0 < t_int t ->
  y_now w1 < d <= y_now w1 + t_int t.
Proof.
  intros Hw w1 Hd Hn Ht Hp.
  assert (Hdone : forall w0, ahead w0 w1 -> incl (y_due w0) (y_due w) -> y_now w1 < d <= y_now w1 + t_int t).
  { intros w0 (_ & _ & H) Hi. apply (H id i d t Hd); [|exact Ht|exact Hp]. intros H0. apply Hn, Hi, H0. }
  assert (Hs : incl (y_due w) (y_due w)) by (intros x H; exact H).
  destruct e as [wr int o| | |dt|j o|j o]; unfold w1 in *; cbn [Slow.wstep] in *.
  - destruct (y_running w); [|contradiction]. eapply Hdone; [apply ahead_start|exact Hs].
  - eapply Hdone; [|exact Hs]. apply (each_ok _ (ahead (set_on true w))); [|apply ahead_refl]. intros k w0 H. eapply ahead_trans; [exact H|apply ahead_start].
  - eapply Hdone; [|exact Hs]. pose proof (each_ok stop (ahead w) (seq 0 (length (y_tasks w))) ltac:(intros k w0 H; eapply ahead_trans; [exact H|apply ahead_stop]) w (ahead_refl w)) as H.
    destruct (each stop _ w) as [w2 [x|e]]; cbn [fst] in *; [|exact H]. eapply ahead_trans; [exact H|]. apply ahead_sub; [reflexivity..|]. intros y Hy. exact Hy.
  - contradiction.
  - destruct (y_due w !! j) as [[[id' k] at_]|] eqn:Ej; [|contradiction]. destruct (Z.leb_spec at_ (y_now w)) as [Hle|]; [|contradiction]. cbn [fst] in *.
    eapply Hdone; [apply ahead_call|].
    + intros t' Ht' Hon Hp'. cbn in *. destruct (proj2 Hw k t' Ht') as [_ Hsh]. unfold shape in Hsh. rewrite Hon in Hsh.
      assert (Hin : In (id', at_) (dues k (y_due w))) by (apply dues_In; apply elem_of_list_In; eapply elem_of_list_lookup_2; exact Ej).
      destruct Hsh as [(a & b & E & _ & _ & H)|(E & _)]; rewrite E in Hin; [|contradiction]. destruct Hin as [[= <- <-]|[]]. destruct (H Hp') as [<- _]. exact Hle.
    + destruct (deleted _ _ _ Ej) as (l1 & l2 & E1 & E2). cbn. rewrite E2, E1. intros x Hx. apply in_app_or in Hx as [Hx|Hx]; apply in_or_app; [left|right; right]; exact Hx.
  - destruct (y_open w !! j) as [k|] eqn:Ej; [|contradiction]. cbn [fst] in *. eapply Hdone; [apply ahead_finish|exact Hs].
    intros t' Ht' Hon Hp'. cbn in *. destruct (proj2 Hw k t' Ht') as [_ Hsh]. unfold shape in Hsh. rewrite Hon in Hsh.
    destruct Hsh as [(a & b & _ & E & _)|(_ & _ & _ & H)]; [|auto]. exfalso. destruct (deleted _ _ _ Ej) as (l1 & l2 & E1 & _). rewrite E1, opens_app in E.
    unfold opens in E at 2. cbn in E. rewrite Nat.eqb_refl in E. cbn in E. lia.
Qed.
Lemma next_call h now e id i d t : calm h now -> let w := wrun h (world_init now) in let w1 := fst (wstep e w) in calm (h ++ [e]) now ->
  In (id, i, d) (y_due w1) -> ~ In (id, i, d) (y_due w) -> y_tasks w1 !! i = Some t -> 0 < t_int t ->
  y_now w1 < d <= y_now w1 + t_int t /\ exists k, 0 <= k /\ d = l_start (t_loop t) + k * t_int t.
Proof.
  intros Hc w w1 Hc1 Hd Hn Ht Hp. split; [exact (ahead_step e w id i d t (wrun_ok h now Hc) Hd Hn Ht Hp)|].
  pose proof (wrun_ok _ now Hc1) as Hw1. rewrite wrun_snoc in Hw1. fold w in Hw1. fold w1 in Hw1. destruct (proj2 Hw1 i t Ht) as [Hb Hs]. unfold shape in Hs.
  apply dues_In in Hd. destruct (l_on (t_loop t)) eqn:Hon; [|destruct Hs as [E _]; rewrite E in Hd; contradiction].
  destruct Hs as [(a & b & E & _ & _ & H)|(E & _)]; rewrite E in Hd; [|contradiction]. destruct Hd as [[= <- <-]|[]]. destruct (H Hp) as [-> _].
  destruct (b_on _ _ _ Hb Hon) as (_ & _ & H3). exact (H3 Hp).
Qed.
End facts.
