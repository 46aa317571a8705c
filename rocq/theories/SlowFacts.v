From Verif Require Import Base Report Slow.
From Coq Require Import Sorted.
Open Scope Z_scope.

(** ** the next point of the grid *)
Lemma next_time_spec now interval expect : 0 < interval -> expect <= now ->
  exists k, next_time now interval expect = expect + k * interval /\ now < next_time now interval expect <= now + interval.
Proof.
  intros Hi He. unfold next_time. pose proof (Z.mod_pos_bound (expect - now) interval Hi) as Hm.
  pose proof (Z.div_mod (expect - now) interval ltac:(lia)) as Hd. set (q := (expect - now) / interval) in *. set (r := (expect - now) mod interval) in *.
  assert (Hr : now + r = expect + (- q) * interval) by nia.
  destruct (Z.max_spec (expect + interval) (now + r)) as [[Hlt ->]|[Hge ->]].
  - destruct (Z.eqb_spec (now + r) now) as [H|H]; [exists (- q + 1)|exists (- q)]; split; nia.
  - destruct (Z.eqb_spec (expect + interval) now) as [H|H]; [exists 2|exists 1]; split; try lia.
Qed.

Section facts.
Context {V : Type} (instance : str) (rejects : str -> V -> option exn).
Notation world := (world V).
Notation wrun := (wrun instance rejects).
Notation wstep := (wstep instance rejects).
Notation finish := (finish instance rejects).
Notation call := (call instance rejects).
Notation start := (start instance rejects).

(** what concerns one task *)
Definition dues (i : nat) (l : list (nat * nat * Z)) : list (nat * Z) := flat_map (fun '(id, k, t) => if Nat.eqb k i then [(id, t)] else []) l.
Definition opens (i : nat) (l : list nat) : nat := length (List.filter (Nat.eqb i) l).
Definition made (i : nat) (l : list tcall) : list tcall := List.filter (fun c => Nat.eqb (a_task c) i) l.

Record base (now : Z) (t : stask) (A : list tcall) : Prop := {
  b_on : l_on (t_loop t) = true -> 0 <= t_int t /\ l_start (t_loop t) <= now /\
         (0 < t_int t -> exists k, 0 <= k /\ l_expect (t_loop t) = l_start (t_loop t) + k * t_int t);
  b_past : Forall (fun a => a_at a <= now) A;
  b_sorted : 0 < t_int t -> StronglySorted (fun a b => a_at a < a_due b) A;
  b_grid : 0 < t_int t -> Forall (fun a => a_due a <= a_at a /\ exists k, 0 <= k /\ a_due a = a_start a + k * t_int t) A }.
Definition shape (now : Z) (t : stask) (D : list (nat * Z)) (O : nat) (A : list tcall) : Prop :=
  if l_on (t_loop t) then
    (exists id d, D = [(id, d)] /\ O = 0%nat /\ l_call (t_loop t) = Some id /\
       (0 < t_int t -> d = l_expect (t_loop t) /\ Forall (fun a => a_at a < d) A)) \/
    (D = [] /\ O = 1%nat /\ l_call (t_loop t) = None /\ (0 < t_int t -> l_expect (t_loop t) <= now))
  else D = [] /\ (O <= 1)%nat /\ l_call (t_loop t) = None.
Record glob (w : world) : Prop := {
  g_ids : List.NoDup (map (fun d => fst (fst d)) (y_due w));
  g_next : Forall (fun d => (fst (fst d) < y_next w)%nat) (y_due w);
  g_due : Forall (fun d => (snd (fst d) < length (y_tasks w))%nat) (y_due w);
  g_open : Forall (fun i => (i < length (y_tasks w))%nat) (y_open w);
  g_made : Forall (fun c => (a_task c < length (y_tasks w))%nat) (y_calls w) }.
Definition tinv (w : world) (i : nat) : Prop := forall t, y_tasks w !! i = Some t ->
  base (y_now w) t (made i (y_calls w)) /\ shape (y_now w) t (dues i (y_due w)) (opens i (y_open w)) (made i (y_calls w)).
Definition winv (w : world) : Prop := glob w /\ forall i, tinv w i.
(** all but task [i], which is neither delayed nor waiting *)
Definition wex (i : nat) (t : stask) (w : world) : Prop :=
  glob w /\ (forall j, j <> i -> tinv w j) /\ y_tasks w !! i = Some t /\
  dues i (y_due w) = [] /\ opens i (y_open w) = 0%nat /\ base (y_now w) t (made i (y_calls w)) /\
  (l_on (t_loop t) = true -> 0 < t_int t -> l_expect (t_loop t) <= y_now w).

Lemma dues_app i a b : dues i (a ++ b) = dues i a ++ dues i b.
Proof. apply flat_map_app. Qed.
Lemma opens_app i a b : opens i (a ++ b) = (opens i a + opens i b)%nat.
Proof. unfold opens. rewrite List.filter_app, app_length. reflexivity. Qed.
Lemma opens_one i j : opens i [j] = if Nat.eqb i j then 1%nat else 0%nat.
Proof. unfold opens. cbn. destruct (Nat.eqb i j); reflexivity. Qed.
Lemma made_app i a b : made i (a ++ b) = made i a ++ made i b.
Proof. apply List.filter_app. Qed.
Lemma alter_tasks i j (l : loop) (ts : list stask) : alter (fun t => STask (t_wrap t) (t_int t) l) i ts !! j =
  if Nat.eqb i j then (fun t => STask (t_wrap t) (t_int t) l) <$> (ts !! j) else ts !! j.
Proof.
  destruct (Nat.eqb_spec i j) as [->|H]; [rewrite list_lookup_alter; reflexivity|rewrite list_lookup_alter_ne by exact H; reflexivity].
Qed.

(** *** reschedule *)
Lemma glob_later w i t l : glob w -> (i < length (y_tasks w))%nat -> glob (later i t (set_loop i l w)).
Proof.
  intros [H1 H2 H3 H4 H5] Hi. split; cbn; rewrite ?map_app, ?alter_length.
  - apply NoDup_ListNoDup. apply NoDup_ListNoDup in H1. apply NoDup_app. split; [exact H1|]. split; [|apply NoDup_singleton].
    intros x Hx Hs. apply elem_of_list_singleton in Hs. subst x. apply elem_of_list_fmap in Hx as (d & Hd & Hx).
    rewrite Forall_forall in H2. pose proof (H2 d Hx). cbn in *. lia.
  - apply Forall_app. split; [|repeat constructor]. eapply Forall_impl; [exact H2|]. cbn. intros. lia.
  - apply Forall_app. split; [exact H3|]. repeat constructor. exact Hi.
  - exact H4.
  - exact H5.
Qed.
Lemma reschedule_ok i t w : wex i t w -> l_on (t_loop t) = true -> winv (reschedule i t w).
Proof.
  intros (Hg & Ho & Ht & Hd & Hp & Hb & He) Hon. pose proof (lookup_lt_Some _ _ _ Ht) as Hlen.
  assert (Hcore : forall at_ l, l_on l = true -> l_call l = Some (y_next w) -> l_start l = l_start (t_loop t) ->
    (0 < t_int t -> l_expect l = at_ /\ y_now w < at_ /\ exists k, 0 <= k /\ at_ = l_start (t_loop t) + k * t_int t) ->
    winv (later i at_ (set_loop i l w))).
  { intros at_ l L1 L2 L3 L4. split; [apply glob_later; assumption|]. intros j t' Hj. cbn in Hj. rewrite alter_tasks in Hj.
    cbn [y_now y_due y_open y_calls later set_loop]. rewrite dues_app. cbn [dues flat_map]. destruct (Nat.eqb_spec i j) as [<-|Hne].
    - rewrite Ht in Hj. cbn in Hj. injection Hj as <-. rewrite Hd. cbn [app]. destruct (b_on _ _ _ Hb Hon) as (B1 & B2 & B3). split.
      + split; cbn [t_loop t_int]; [|apply Hb..]. intros _. split; [exact B1|]. rewrite L3. split; [exact B2|]. intros Hpos.
        destruct (L4 Hpos) as (-> & _ & k & Hk & Hk'). exists k. auto.
      + unfold shape. cbn [t_loop t_int]. rewrite L1. left. exists (y_next w), at_. split; [reflexivity|]. split; [exact Hp|]. split; [exact L2|].
        intros Hpos. destruct (L4 Hpos) as (-> & Hlt & _). split; [reflexivity|]. eapply Forall_impl; [exact (b_past _ _ _ Hb)|]. cbn. intros. lia.
    - cbn [app]. rewrite app_nil_r. exact (Ho j ltac:(auto) t' Hj). }
  unfold reschedule. destruct (Z.eqb_spec (t_int t) 0) as [Hz|Hz].
  - apply Hcore; auto. intros. lia.
  - destruct (b_on _ _ _ Hb Hon) as (B1 & B2 & B3). apply Hcore; auto. intros Hpos. split; [reflexivity|].
    destruct (next_time_spec (y_now w) (t_int t) (l_expect (t_loop t)) Hpos (He Hon Hpos)) as (k & Hk & Hlt). split; [lia|].
    destruct (B3 Hpos) as (k0 & Hk0 & Hk0'). exists (k0 + k). rewrite Hk, Hk0'. split; [|lia]. rewrite Hk in Hlt. pose proof (He Hon Hpos). nia.
Qed.
Lemma idle_ok i t w : wex i t w -> l_on (t_loop t) = false -> l_call (t_loop t) = None -> winv w.
Proof.
  intros (Hg & Ho & Ht & Hd & Hp & Hb & _) Hoff Hc. split; [exact Hg|]. intros j. destruct (decide (j = i)) as [->|Hne]; [|apply Ho, Hne].
  intros t' Ht'. rewrite Ht in Ht'. injection Ht' as <-. split; [exact Hb|]. unfold shape. rewrite Hoff, Hd, Hp. auto.
Qed.
(** what the rest of the state is does not matter *)
Lemma wex_reports i t w r e : wex i t w -> wex i t (add_reports r e w).
Proof.
  intros (Hg & Ho & Ht & Hd & Hp & Hb & He). split; [destruct Hg; split; assumption|]. split; [exact Ho|]. auto 10.
Qed.
Lemma wex_loop i t w l : wex i t w -> (l_on l = true -> l_on (t_loop t) = true /\ l_start l = l_start (t_loop t) /\ l_expect l = l_expect (t_loop t)) ->
  wex i (STask (t_wrap t) (t_int t) l) (set_loop i l w).
Proof.
  intros (Hg & Ho & Ht & Hd & Hp & Hb & He) Hl. split; [|split; [|split; [|split; [|split; [|split]]]]]; auto.
  - destruct Hg. split; cbn; rewrite ?alter_length; auto.
  - intros j Hj t' Hj'. cbn in Hj'. rewrite alter_tasks in Hj'. destruct (Nat.eqb_spec i j) as [->|_]; [contradiction|]. exact (Ho j Hj t' Hj').
  - cbn. rewrite alter_tasks, Nat.eqb_refl, Ht. reflexivity.
  - split; cbn [t_loop t_int]; [|apply Hb..]. intros H. destruct (Hl H) as (H1 & -> & ->). apply Hb, H1.
  - cbn [t_loop t_int y_now set_loop]. intros H. destruct (Hl H) as (H1 & _ & ->). apply He, H1.
Qed.
Lemma call_back_ok i t w : wex i t w -> l_call (t_loop t) = None -> winv (call_back i w).
Proof.
  intros Hw Hc. pose proof Hw as (_ & _ & Ht & _). unfold call_back. rewrite Ht. destruct (l_on (t_loop t)) eqn:Hon.
  - apply reschedule_ok; assumption.
  - eapply idle_ok; eassumption.
Qed.
Lemma finish_ok i t o w : wex i t w -> l_call (t_loop t) = None -> winv (finish i o w).
Proof.
  intros Hw Hc. pose proof Hw as (_ & _ & Ht & _). unfold Slow.finish. rewrite Ht. destruct (t_wrap t) eqn:Hwr.
  - destruct o as [items|e].
    + destruct (report_metrics instance rejects items) as [r e]. eapply call_back_ok; [apply wex_reports, Hw|exact Hc].
    + eapply call_back_ok; [apply wex_reports, Hw|exact Hc].
  - destruct o as [items|e].
    + eapply call_back_ok; eassumption.
    + unfold err_back. rewrite Ht. eapply (idle_ok i (STask (t_wrap t) (t_int t) (Loop false (l_call (t_loop t)) (l_start (t_loop t)) (l_expect (t_loop t)))));
        [|reflexivity|exact Hc]. apply wex_loop; [exact Hw|discriminate].
Qed.
Lemma StronglySorted_snoc {A} (R : A -> A -> Prop) l x : StronglySorted R l -> Forall (fun a => R a x) l -> StronglySorted R (l ++ [x]).
Proof.
  induction 1 as [|a l Hl IH Hf]; intros H; cbn; [repeat constructor|]. inversion H; subst. constructor; [apply IH; assumption|].
  apply Forall_app. split; [exact Hf|]. repeat constructor. assumption.
Qed.
Lemma call_ok i t due o w : wex i t w -> due <= y_now w ->
  (0 < t_int t -> Forall (fun a => a_at a < due) (made i (y_calls w)) /\ exists k, 0 <= k /\ due = l_start (t_loop t) + k * t_int t) ->
  winv (call i due o w).
Proof.
  intros Hw Hdue Hk. pose proof Hw as (_ & _ & Ht & _). unfold Slow.call. rewrite Ht. set (l := t_loop t) in *.
  set (l' := Loop (l_on l) None (l_start l) (l_expect l)). set (t' := STask (t_wrap t) (t_int t) l').
  assert (Hw1 : wex i t' (set_loop i l' w)) by (apply wex_loop; [exact Hw|auto]).
  set (w1 := set_loop i l' w) in *. set (c := TCall i (l_start l) due (y_now w)).
  assert (Hw2 : wex i t' (add_call c w1)).
  { destruct Hw1 as (Hg & Ho & Ht1 & Hd & Hp & Hb & He). split; [|split; [|split; [|split; [|split; [|split]]]]]; auto.
    - destruct Hg. split; cbn in *; auto. apply Forall_app. split; [assumption|]. repeat constructor. exact (lookup_lt_Some _ _ _ Ht1).
    - intros j Hj t0 Hj0. cbn in Hj0. cbn [y_now y_due y_open y_calls add_call]. rewrite made_app. cbn [made List.filter a_task c].
      destruct (Nat.eqb_spec i j) as [->|_]; [contradiction|]. rewrite app_nil_r. exact (Ho j Hj t0 Hj0).
    - cbn [y_now y_calls add_call]. rewrite made_app. cbn [made List.filter a_task c]. rewrite Nat.eqb_refl. destruct Hb as [B1 B2 B3 B4]. split.
      + exact B1.
      + apply Forall_app. split; [exact B2|]. repeat constructor. cbn. lia.
      + intros Hpos. apply StronglySorted_snoc; [apply B3, Hpos|]. apply (Hk Hpos).
      + intros Hpos. apply Forall_app. split; [apply B4, Hpos|]. repeat constructor; [exact Hdue|]. cbn. apply (Hk Hpos). }
  destruct o as [r|].
  - eapply finish_ok; [exact Hw2|reflexivity].
  - destruct Hw2 as (Hg & Ho & Ht1 & Hd & Hp & Hb & He). split.
    + destruct Hg. split; cbn in *; auto. apply Forall_app. split; [assumption|]. repeat constructor. exact (lookup_lt_Some _ _ _ Ht1).
    + intros j t0 Hj0. cbn [y_now y_due y_open y_calls y_tasks set_open] in *. rewrite opens_app, opens_one. destruct (decide (j = i)) as [->|Hne].
      * assert (t0 = t') as -> by congruence. split; [exact Hb|]. unfold shape. rewrite Nat.eqb_refl.
        cbn [y_due y_open y_calls add_call] in *. rewrite Hp. destruct (l_on (t_loop t')) eqn:Hon; [right|]; auto.
      * destruct (Nat.eqb_spec j i) as [->|_]; [contradiction|]. rewrite Nat.add_0_r. exact (Ho j Hne t0 Hj0).
Qed.
(** *** start *)
Definition quiet (w : world) : Prop := forall i t, y_tasks w !! i = Some t -> l_on (t_loop t) = false -> opens i (y_open w) = 0%nat.
Lemma started i t w : winv w -> y_tasks w !! i = Some t -> l_on (t_loop t) = false -> opens i (y_open w) = 0%nat -> 0 <= t_int t ->
  let l := Loop true (l_call (t_loop t)) (y_now w) (y_now w) in
  wex i (STask (t_wrap t) (t_int t) l) (set_loop i l w) /\ l_call l = None.
Proof.
  intros [Hg Hi] Ht Hoff Hop Hint l. destruct (Hi i t Ht) as [Hb Hs]. unfold shape in Hs. rewrite Hoff in Hs. destruct Hs as (Hd & _ & Hc).
  split; [|exact Hc]. split; [|split; [|split; [|split; [|split; [|split]]]]]; auto.
  - destruct Hg. split; cbn; rewrite ?alter_length; auto.
  - intros j Hj t' Hj'. cbn in Hj'. rewrite alter_tasks in Hj'. destruct (Nat.eqb_spec i j) as [->|_]; [contradiction|]. exact (Hi j t' Hj').
  - cbn. rewrite alter_tasks, Nat.eqb_refl, Ht. reflexivity.
  - split; cbn [t_loop t_int y_now set_loop]; [|apply Hb..]. intros _. cbn. split; [exact Hint|]. split; [lia|]. intros _. exists 0. lia.
  - cbn. lia.
Qed.
Lemma start_ok i first w : winv w -> (forall t, y_tasks w !! i = Some t -> l_on (t_loop t) = false -> opens i (y_open w) = 0%nat) ->
  (first <> None -> made i (y_calls w) = []) -> winv (fst (start i first w)).
Proof.
  intros Hw Hq Hf. unfold Slow.start. destruct (y_tasks w !! i) as [t|] eqn:Ht; [|exact Hw]. destruct (l_on (t_loop t)) eqn:Hon; [exact Hw|].
  destruct (Z.ltb_spec (t_int t) 0) as [H|H]; [exact Hw|]. cbn [fst].
  destruct (started i t w Hw Ht Hon (Hq t eq_refl Hon) H) as [Hs Hc]. destruct first as [o|].
  - eapply call_ok; [exact Hs|cbn; lia|]. intros _. cbn [y_calls set_loop]. rewrite Hf by discriminate. split; [constructor|]. exists 0. cbn. lia.
  - apply reschedule_ok; [exact Hs|reflexivity].
Qed.
(** *** stop *)
Lemma dues_filter i id l : (forall x, In x l -> fst (fst x) = id -> snd (fst x) <> i) ->
  dues i (List.filter (fun d => negb (Nat.eqb (fst (fst d)) id)) l) = dues i l.
Proof.
  induction l as [|[[a k] t] l IH]; intros H; [reflexivity|]. cbn [List.filter fst negb]. destruct (Nat.eqb_spec a id) as [->|Hne].
  - cbn [negb]. rewrite IH by (intros x Hx; apply H; right; exact Hx). cbn [dues flat_map]. destruct (Nat.eqb_spec k i) as [->|_]; [|reflexivity].
    exfalso. exact (H (id, i, t) (or_introl eq_refl) eq_refl eq_refl).
  - cbn [negb dues flat_map]. f_equal. apply IH. intros x Hx. apply H. right. exact Hx.
Qed.
Lemma dues_In i id t l : In (id, t) (dues i l) <-> In (id, i, t) l.
Proof.
  unfold dues. rewrite in_flat_map. split.
  - intros ([[a k] u] & Hin & Hx). destruct (Nat.eqb_spec k i) as [->|_]; [|destruct Hx]. destruct Hx as [[= -> ->]|[]]. exact Hin.
  - intros H. exists (id, i, t). split; [exact H|]. rewrite Nat.eqb_refl. left. reflexivity.
Qed.
Lemma same_id (l : list (nat * nat * Z)) x y : List.NoDup (map (fun d => fst (fst d)) l) -> In x l -> In y l -> fst (fst x) = fst (fst y) -> x = y.
Proof.
  induction l as [|a l IH]; intros Hn Hx Hy E; [destruct Hx|]. inversion Hn; subst. destruct Hx as [<-|Hx], Hy as [<-|Hy]; auto.
  - exfalso. apply H1. rewrite E. apply in_map_iff. eauto.
  - exfalso. apply H1. rewrite <- E. apply in_map_iff. eauto.
Qed.
Lemma stop_ok i w : winv w -> winv (fst (Slow.stop i w)).
Proof.
  intros Hw. pose proof Hw as [Hg Hi]. unfold Slow.stop. destruct (y_tasks w !! i) as [t|] eqn:Ht; [|exact Hw].
  destruct (l_on (t_loop t)) eqn:Hon; [|exact Hw]. cbn [fst]. destruct (Hi i t Ht) as [Hb Hs]. pose proof Hs as Hs'. unfold shape in Hs. rewrite Hon in Hs.
  set (l' := Loop false None (l_start (t_loop t)) (l_expect (t_loop t))).
  assert (Hsl : forall j, j <> i -> forall t', y_tasks (set_loop i l' w) !! j = Some t' -> y_tasks w !! j = Some t').
  { intros j Hj t' Hj'. cbn in Hj'. rewrite alter_tasks in Hj'. destruct (Nat.eqb_spec i j) as [->|_]; [contradiction|exact Hj']. }
  assert (Hti : y_tasks (set_loop i l' w) !! i = Some (STask (t_wrap t) (t_int t) l')) by (cbn; rewrite alter_tasks, Nat.eqb_refl, Ht; reflexivity).
  assert (Hb' : base (y_now w) (STask (t_wrap t) (t_int t) l') (made i (y_calls w))) by (split; cbn [t_loop t_int]; [discriminate|apply Hb..]).
  destruct Hs as [(id & d & Hd & Hop & Hc & _)|(Hd & Hop & Hc & _)]; rewrite Hc.
  - assert (Hin : In (id, i, d) (y_due w)) by (apply dues_In; rewrite Hd; left; reflexivity). split.
    + destruct Hg as [G1 G2 G3 G4 G5]. split; cbn; rewrite ?alter_length; auto.
      * clear -G1. induction (y_due w) as [|x l IH]; [constructor|]. cbn in *. inversion G1; subst. destruct (negb _); [|auto]. cbn. constructor; [|auto].
        intros H. apply H1. apply in_map_iff in H as (y & E & Hy). apply List.filter_In in Hy as [Hy _]. apply in_map_iff. eauto.
      * apply List.Forall_forall. intros x Hx. apply List.filter_In in Hx as [Hx _]. rewrite List.Forall_forall in G2. apply G2, Hx.
      * apply List.Forall_forall. intros x Hx. apply List.filter_In in Hx as [Hx _]. rewrite List.Forall_forall in G3. apply G3, Hx.
    + intros j t' Hj. cbn [y_tasks set_due] in Hj. cbn [y_now y_due y_open y_calls set_due set_loop]. destruct (decide (j = i)) as [->|Hne].
      * rewrite Hti in Hj. injection Hj as <-. split; [exact Hb'|]. unfold shape. cbn [t_loop l_on l']. split; [|split; [lia|reflexivity]].
        destruct (dues i (List.filter _ (y_due w))) as [|[id' d'] rest] eqn:E; [reflexivity|]. exfalso.
        assert (Hx : In (id', d') (dues i (List.filter (fun d0 => negb (Nat.eqb (fst (fst d0)) id)) (y_due w)))) by (rewrite E; left; reflexivity).
        apply dues_In in Hx. apply List.filter_In in Hx as [Hx Hn]. cbn in Hn. apply dues_In in Hx. rewrite Hd in Hx. destruct Hx as [[= <- <-]|[]].
        rewrite Nat.eqb_refl in Hn. discriminate.
      * rewrite dues_filter; [exact (Hi j t' (Hsl j Hne t' Hj))|]. intros x Hx E Hk.
        assert (x = (id, i, d)) as -> by (apply (same_id (y_due w)); auto; apply Hg). cbn in Hk. congruence.
  - split.
    + destruct Hg. split; cbn; rewrite ?alter_length; auto.
    + intros j t' Hj. cbn [y_now y_due y_open y_calls set_loop]. destruct (decide (j = i)) as [->|Hne].
      * rewrite Hti in Hj. injection Hj as <-. split; [exact Hb'|]. unfold shape. cbn [t_loop l_on l']. rewrite Hd. split; [reflexivity|]. split; [lia|reflexivity].
      * exact (Hi j t' (Hsl j Hne t' Hj)).
Qed.
End facts.
