(** What a timed run reports, and its agreement with the untimed model of Report.v. *)
From Verif Require Import Base Report ReportSpec ReportFacts Slow SlowFacts SlowProps.
Open Scope Z_scope.

Section more.
Context {V : Type} (instance : str) (rejects : str -> V -> option exn).
Notation world := (world V).
Notation outcome := (res (list (str * V))).
Notation wrun := (wrun instance rejects).
Notation wstep := (wstep instance rejects).
Notation finish := (finish instance rejects).
Notation call := (call instance rejects).
Notation start := (start instance rejects).

(** ** what is reported *)
(** the calls that come to an end with event [e]: whether the function is scheduled with a report
    function, and its result *)
Definition ended (e : wevent V) (w : world) : list (bool * outcome) :=
  let wraps i := match y_tasks w !! i with Some t => t_wrap t | None => false end in
  match e with
  | WSchedule wr int (Some r) => if y_running w && (0 <=? int) then [(wr, r)] else []
  | WFire j (Some r) => match y_due w !! j with Some (id, i, t) => if t <=? y_now w then [(wraps i, r)] else [] | None => [] end
  | WResult j r => match y_open w !! j with Some i => [(wraps i, r)] | None => [] end
  | _ => []
  end.
Fixpoint all_ended (h : list (wevent V)) (w : world) : list (bool * outcome) :=
  match h with [] => [] | e :: h' => ended e w ++ all_ended h' (fst (wstep e w)) end.
(** what these results give: reports and log entries *)
Inductive told : list (bool * outcome) -> list (str * V) -> list exn -> Prop :=
| to_none : told [] [] []
| to_wrapped o rest r l rs ls : one_call instance rejects true o r l -> told rest rs ls -> told ((true, o) :: rest) (r ++ rs) (l ++ ls)
| to_bare o rest rs ls : told rest rs ls -> told ((false, o) :: rest) rs ls.
Lemma told_app a b r1 l1 r2 l2 : told a r1 l1 -> told b r2 l2 -> told (a ++ b) (r1 ++ r2) (l1 ++ l2).
Proof. intros H Hb. induction H; cbn; [exact Hb|rewrite <- !app_assoc; constructor; assumption|constructor; assumption]. Qed.

Definition same_but (w w1 : world) : Prop := y_reports w1 = y_reports w /\ y_logged w1 = y_logged w /\ y_calls w1 = y_calls w /\ y_open w1 = y_open w.
Lemma same_reschedule i t (w : world) : same_but w (reschedule i t w).
Proof. unfold reschedule. destruct (t_int t =? 0); split; auto. Qed.
Lemma same_call_back i (w : world) : same_but w (call_back i w).
Proof. unfold call_back. destruct (y_tasks w !! i) as [t|]; [|split; auto]. destruct (l_on (t_loop t)); [apply same_reschedule|split; auto]. Qed.
Lemma finish_tells i t o (w : world) : y_tasks w !! i = Some t -> exists r l, told [(t_wrap t, o)] r l /\
  y_reports (finish i o w) = y_reports w ++ r /\ y_logged (finish i o w) = y_logged w ++ l /\ y_calls (finish i o w) = y_calls w /\ y_open (finish i o w) = y_open w.
Proof.
  intros Ht. unfold Slow.finish. rewrite Ht. destruct (t_wrap t); destruct o as [items|e].
  - destruct (report_metrics instance rejects items) as [r e] eqn:E. destruct (same_call_back i (add_reports r match e with Some e => [e] | None => [] end w)) as (H1 & H2 & H3 & H4).
    exists r, match e with Some e => [e] | None => [] end. split; [|rewrite H1, H2, H3, H4; auto].
    rewrite <- (app_nil_r r), <- (app_nil_r match e with Some _ => _ | None => _ end). constructor; [|constructor]. constructor. apply delivers_iff.
    rewrite E. destruct e; (split; [reflexivity|cbn; lia]).
  - destruct (same_call_back i (add_reports [] [e] w)) as (H1 & H2 & H3 & H4). exists [], [e]. split; [|rewrite H1, H2, H3, H4; auto].
    change (told [(true, Exn e)] ([] ++ []) ([e] ++ [])). constructor; constructor.
  - destruct (same_call_back i w) as (H1 & H2 & H3 & H4). exists [], []. rewrite !app_nil_r. split; [constructor; constructor|auto].
  - exists [], []. rewrite !app_nil_r. split; [constructor; constructor|]. unfold err_back. rewrite Ht. auto.
Qed.
(** a call that is made either comes to an end or waits *)
Definition tells (done : list (bool * outcome)) (w w1 : world) : Prop := exists r l, told done r l /\
  y_reports w1 = y_reports w ++ r /\ y_logged w1 = y_logged w ++ l /\
  (length done + length (y_open w1) + length (y_calls w) = length (y_open w) + length (y_calls w1))%nat.
Lemma call_tells i t due o (w : world) : y_tasks w !! i = Some t -> tells match o with Some r => [(t_wrap t, r)] | None => [] end w (call i due o w).
Proof.
  intros Ht. unfold Slow.call. rewrite Ht. set (w1 := add_call _ _). destruct o as [r|].
  - set (t1 := STask (t_wrap t) (t_int t) (Loop (l_on (t_loop t)) None (l_start (t_loop t)) (l_expect (t_loop t)))).
    destruct (finish_tells i t1 r w1) as (rs & ls & H & H1 & H2 & H3 & H4); [cbn; rewrite alter_tasks, Nat.eqb_refl, Ht; reflexivity|].
    exists rs, ls. split; [exact H|]. rewrite H1, H2, H3, H4. split; [reflexivity|]. split; [reflexivity|]. cbn. rewrite app_length. cbn. lia.
  - exists [], []. split; [constructor|]. rewrite !app_nil_r. split; [reflexivity|]. split; [reflexivity|]. cbn. rewrite !app_length. cbn. lia.
Qed.
Lemma same_tells (w w1 : world) : same_but w w1 -> tells [] w w1.
Proof. intros (H1 & H2 & H3 & H4). exists [], []. split; [constructor|]. rewrite H1, H2, H3, H4, !app_nil_r. auto. Qed.
Lemma tells_trans a b w w1 w2 : tells a w w1 -> tells b w1 w2 -> tells (a ++ b) w w2.
Proof.
  intros (r1 & l1 & A1 & A2 & A3 & A4) (r2 & l2 & B1 & B2 & B3 & B4). exists (r1 ++ r2), (l1 ++ l2). split; [apply told_app; assumption|].
  rewrite B2, B3, A2, A3, !app_assoc, app_length. split; [reflexivity|]. split; [reflexivity|]. lia.
Qed.
Lemma start_same i (w : world) : same_but w (fst (start i None w)).
Proof.
  unfold Slow.start. destruct (y_tasks w !! i) as [t|]; [|split; auto]. destruct (l_on (t_loop t)); [split; auto|]. destruct (t_int t <? 0); [split; auto|].
  apply (same_reschedule i (STask (t_wrap t) (t_int t) (Loop true (l_call (t_loop t)) (y_now w) (y_now w))) (set_loop i (Loop true (l_call (t_loop t)) (y_now w) (y_now w)) w)).
Qed.
Lemma stop_same i (w : world) : same_but w (fst (stop i w)).
Proof.
  unfold Slow.stop. destruct (y_tasks w !! i) as [t|]; [|split; auto]. destruct (l_on (t_loop t)); [|split; auto]. destruct (l_call (t_loop t)); split; auto.
Qed.
Lemma same_trans (a b c : world) : same_but a b -> same_but b c -> same_but a c.
Proof. unfold same_but. intuition congruence. Qed.
Lemma refl_same (w : world) : same_but w w.
Proof. split; auto. Qed.
(** every delayed call and waiting Deferred belongs to a task *)
Definition owned (w : world) : Prop := Forall (fun d => (snd (fst d) < length (y_tasks w))%nat) (y_due w) /\ Forall (fun i => (i < length (y_tasks w))%nat) (y_open w).
Lemma step_tells e (w : world) : owned w -> tells (ended e w) w (fst (wstep e w)).
Proof.
  intros [Hd Ho]. destruct e as [wr int o| | |dt|j o|j o]; cbn [Slow.wstep ended].
  - set (w1 := World _ _ (y_tasks w ++ _) _ _ _ _ _ _). destruct (y_running w); cbn [andb]; [|destruct o; apply same_tells; split; auto].
    assert (Hl : y_tasks w1 !! length (y_tasks w) = Some (STask wr int loop_new)) by (cbn; apply list_lookup_middle; reflexivity).
    unfold Slow.start. rewrite Hl. cbn [t_loop loop_new l_on t_int t_wrap]. destruct (Z.ltb_spec int 0) as [Hi|Hi]; cbn [fst].
    + destruct (Z.leb_spec 0 int); [lia|]. destruct o; apply same_tells; split; auto.
    + destruct (Z.leb_spec 0 int); [|lia]. set (l := Loop _ _ _ _).
      pose proof (call_tells (length (y_tasks w)) (STask wr int l) (y_now w) o (set_loop (length (y_tasks w)) l w1)) as Hct. cbn [t_wrap] in Hct.
      destruct o; (apply Hct; cbn; rewrite alter_tasks, Nat.eqb_refl; cbn in Hl; rewrite Hl; reflexivity).
  - apply same_tells. apply (each_ok _ (same_but w)); [|split; auto]. intros i w0 H. eapply same_trans; [exact H|apply start_same].
  - apply same_tells. pose proof (each_ok stop (same_but w) (seq 0 (length (y_tasks w))) ltac:(intros i w0 H; eapply same_trans; [exact H|apply stop_same]) w (refl_same w)) as H.
    destruct (each stop _ w) as [w1 [x|e]]; exact H.
  - apply same_tells. split; auto.
  - destruct (y_due w !! j) as [[[id i] t]|] eqn:Ej; [|destruct o; apply same_tells, refl_same]. destruct (t <=? y_now w); [|destruct o; apply same_tells, refl_same]. cbn [fst].
    assert (Hi : (i < length (y_tasks w))%nat) by (rewrite Forall_lookup in Hd; exact (Hd _ _ Ej)). destruct (lookup_lt_is_Some_2 _ _ Hi) as [tk Htk]. rewrite Htk.
    pose proof (call_tells i tk t o (set_due (delete j (y_due w)) w) Htk) as H. destruct o; exact H.
  - destruct (y_open w !! j) as [i|] eqn:Ej; [|apply same_tells, refl_same]. cbn [fst].
    assert (Hi : (i < length (y_tasks w))%nat) by (rewrite Forall_lookup in Ho; exact (Ho _ _ Ej)). destruct (lookup_lt_is_Some_2 _ _ Hi) as [tk Htk]. rewrite Htk.
    destruct (finish_tells i tk o (set_open (delete j (y_open w)) w) Htk) as (r & l & H & H1 & H2 & H3 & H4). exists r, l. split; [exact H|]. rewrite H1, H2, H3, H4.
    split; [reflexivity|]. split; [reflexivity|]. cbn. rewrite length_delete by eauto. pose proof (lookup_lt_Some _ _ _ Ej). lia.
Qed.

(** *** over a whole history *)
Definition keeps (w w1 : world) : Prop := length (y_tasks w1) = length (y_tasks w) /\ (owned w -> owned w1).
Lemma keeps_refl w : keeps w w. Proof. split; auto. Qed.
Lemma keeps_trans a b c : keeps a b -> keeps b c -> keeps a c.
Proof. intros [A1 A2] [B1 B2]. split; [congruence|auto]. Qed.
Lemma keeps_loop i l (w : world) : keeps w (set_loop i l w).
Proof. split; [apply alter_length|]. unfold owned. cbn. rewrite alter_length. auto. Qed.
Lemma keeps_reschedule i t (w : world) : (i < length (y_tasks w))%nat -> keeps w (reschedule i t w).
Proof.
  intros Hi. unfold reschedule. assert (H : forall at_ l, keeps w (later i at_ (set_loop i l w))).
  { intros at_ l. split; [apply alter_length|]. intros [H1 H2]. split; cbn; rewrite alter_length; [|exact H2]. apply Forall_app. split; [exact H1|]. repeat constructor. exact Hi. }
  destruct (t_int t =? 0); apply H.
Qed.
Lemma keeps_call_back i (w : world) : keeps w (call_back i w).
Proof.
  unfold call_back. destruct (y_tasks w !! i) as [t|] eqn:Et; [|apply keeps_refl]. destruct (l_on (t_loop t)); [|apply keeps_refl].
  apply keeps_reschedule. exact (lookup_lt_Some _ _ _ Et).
Qed.
Lemma keeps_finish i o (w : world) : keeps w (finish i o w).
Proof.
  unfold Slow.finish. destruct (y_tasks w !! i) as [t|] eqn:Et; [|apply keeps_refl].
  assert (H : forall r e, keeps w (call_back i (add_reports r e w))) by (intros r e; exact (keeps_call_back i (add_reports r e w))).
  destruct (t_wrap t); destruct o as [items|e]; [destruct (report_metrics instance rejects items)| | |]; auto using keeps_call_back.
  unfold err_back. rewrite Et. apply keeps_loop.
Qed.
Lemma keeps_call i due o (w : world) : keeps w (call i due o w).
Proof.
  unfold Slow.call. destruct (y_tasks w !! i) as [t|] eqn:Et; [|apply keeps_refl]. set (l := Loop _ None _ _). destruct o as [r|].
  - eapply keeps_trans; [apply (keeps_loop i l)|]. apply (keeps_finish i r (add_call _ (set_loop i l w))).
  - split; [apply alter_length|]. intros [H1 H2]. split; cbn; rewrite alter_length; [exact H1|]. apply Forall_app. split; [exact H2|]. repeat constructor. exact (lookup_lt_Some _ _ _ Et).
Qed.
Lemma keeps_start i first (w : world) : keeps w (fst (start i first w)).
Proof.
  unfold Slow.start. destruct (y_tasks w !! i) as [t|] eqn:Et; [|apply keeps_refl]. destruct (l_on (t_loop t)); [apply keeps_refl|]. destruct (t_int t <? 0); [apply keeps_refl|]. cbn [fst].
  eapply keeps_trans; [apply keeps_loop|]. destruct first; [apply keeps_call|apply keeps_reschedule]. cbn. rewrite alter_length. exact (lookup_lt_Some _ _ _ Et).
Qed.
Lemma keeps_stop i (w : world) : keeps w (fst (stop i w)).
Proof.
  unfold Slow.stop. destruct (y_tasks w !! i) as [t|] eqn:Et; [|apply keeps_refl]. destruct (l_on (t_loop t)); [|apply keeps_refl]. cbn [fst].
  destruct (l_call (t_loop t)) as [id|]; [|apply keeps_loop]. eapply keeps_trans; [apply keeps_loop|]. split; [reflexivity|]. intros [H1 H2]. split; [|exact H2]. cbn.
  apply List.Forall_forall. intros x Hx. apply List.filter_In in Hx as [Hx _]. rewrite List.Forall_forall in H1. auto.
Qed.
Lemma owned_step e (w : world) : owned w -> owned (fst (wstep e w)).
Proof.
  intros H. destruct e as [wr int o| | |dt|j o|j o]; cbn [Slow.wstep].
  - set (w1 := World _ _ (y_tasks w ++ _) _ _ _ _ _ _).
    assert (Hw1 : owned w1). { destruct H as [H1 H2]. split; cbn; rewrite app_length; (eapply Forall_impl; [eassumption|]; cbn; intros; lia). }
    destruct (y_running w); [|exact Hw1]. apply keeps_start, Hw1.
  - refine (proj2 (each_ok (fun i => start i None) (keeps (set_on true w)) _ _ _ (keeps_refl _)) _); [|exact H]. intros i w0 H0. eapply keeps_trans; [exact H0|apply keeps_start].
  - pose proof (each_ok stop (keeps w) (seq 0 (length (y_tasks w))) ltac:(intros i w0 H0; eapply keeps_trans; [exact H0|apply keeps_stop]) w (keeps_refl w)) as [_ Hk].
    destruct (each stop _ w) as [w1 [x|e]]; exact (Hk H).
  - exact H.
  - destruct (y_due w !! j) as [[[id i] t]|] eqn:Ej; [|exact H]. destruct (t <=? y_now w); [|exact H]. cbn [fst]. apply keeps_call. destruct H as [H1 H2]. split; [|exact H2]. cbn.
    destruct (deleted _ _ _ Ej) as (l1 & l2 & E1 & E2). rewrite E2. rewrite E1 in H1. apply Forall_app in H1 as [Ha Hb]. inversion Hb; subst. apply Forall_app. auto.
  - destruct (y_open w !! j) as [i|] eqn:Ej; [|exact H]. cbn [fst]. apply keeps_finish. destruct H as [H1 H2]. split; [exact H1|]. cbn.
    destruct (deleted _ _ _ Ej) as (l1 & l2 & E1 & E2). rewrite E2. rewrite E1 in H2. apply Forall_app in H2 as [Ha Hb]. inversion Hb; subst. apply Forall_app. auto.
Qed.
Lemma run_tells h : forall w, owned w -> tells (all_ended h w) w (wrun h w).
Proof.
  induction h as [|e h IH]; intros w H; [apply same_tells, refl_same|]. cbn [all_ended]. eapply tells_trans; [apply step_tells, H|].
  exact (IH _ (owned_step e w H)).
Qed.
Lemma all_told h now : let w := wrun h (world_init now) in told (all_ended h (world_init now)) (y_reports w) (y_logged w) /\
  (length (all_ended h (world_init now)) + length (y_open w) = length (y_calls w))%nat.
Proof.
  intros w. destruct (run_tells h (world_init now)) as (r & l & H & H1 & H2 & H3); [split; constructor|]. fold w in H1, H2, H3. cbn in H1, H2. rewrite H1, H2. split; [exact H|].
  cbn in H3. lia.
Qed.

(** ** functions that return at once *)
Definition plain (w : world) : svc V :=
  Svc (y_running w) (map (fun t => Task (t_wrap t) (l_on (t_loop t))) (y_tasks w)) (map a_task (y_calls w)) (y_reports w) (y_logged w).
Definition fast (e : wevent V) : Prop :=
  match e with WSchedule _ int o => 0 <= int /\ o <> None | WFire _ o => o <> None | _ => True end.
Definition untimed (e : wevent V) (w : world) : option (sevent V) :=
  match e with
  | WSchedule wr _ (Some o) => Some (ESchedule wr o)
  | WStart => Some EStart
  | WStop => Some EStop
  | WFire j (Some o) => match y_due w !! j with Some (id, i, t) => if t <=? y_now w then Some (ETick i o) else None | None => None end
  | _ => None
  end.
Definition finv (w : world) : Prop := winv w /\ y_open w = [] /\ Forall (fun t => 0 <= t_int t) (y_tasks w).
Lemma alter_map {A B} (f : A -> B) (g : A -> A) (h : B -> B) l i : (forall x, f (g x) = h (f x)) -> map f (alter g i l) = alter h i (map f l).
Proof. intros H. revert i. induction l as [|x l IH]; intros [|i]; cbn; [reflexivity..|rewrite H; reflexivity|]. f_equal. apply IH. Qed.
Definition put (i : nat) (b : bool) (s : svc V) : svc V := set_tasks (alter (fun t => Task (t_wrapped t) b) i (s_tasks s)) s.
Lemma plain_loop i l (w : world) : plain (set_loop i l w) = put i (l_on l) (plain w).
Proof.
  unfold plain, put, set_tasks. cbn. f_equal. apply (alter_map _ _ (fun t => Task (t_wrapped t) (l_on l))). reflexivity.
Qed.
Lemma put_same i b (s : svc V) t : s_tasks s !! i = Some t -> t_on t = b -> put i b s = s.
Proof.
  intros Ht <-. unfold put, set_tasks. destruct s as [ru ts c r l]. cbn in *. f_equal. apply list_eq. intros j. destruct (decide (i = j)) as [<-|Hne].
  - rewrite list_lookup_alter, Ht. destruct t; reflexivity.
  - apply list_lookup_alter_ne, Hne.
Qed.
Lemma plain_at (w : world) i : s_tasks (plain w) !! i = (fun t => Task (t_wrap t) (l_on (t_loop t))) <$> (y_tasks w !! i).
Proof. unfold plain. cbn. rewrite <- list_lookup_fmap. reflexivity. Qed.
Lemma plain_reschedule i t (w : world) : y_tasks w !! i = Some t -> plain (reschedule i t w) = plain w.
Proof.
  intros Ht. unfold reschedule. assert (H : forall at_ l, l_on l = l_on (t_loop t) -> plain (later i at_ (set_loop i l w)) = plain w).
  { intros at_ l Hl. transitivity (plain (set_loop i l w)); [reflexivity|]. rewrite plain_loop. eapply put_same; [rewrite plain_at, Ht; reflexivity|]. cbn. congruence. }
  destruct (t_int t =? 0); apply H; reflexivity.
Qed.
Lemma plain_call_back i (w : world) : plain (call_back i w) = plain w.
Proof.
  unfold call_back. destruct (y_tasks w !! i) as [t|] eqn:Et; [|reflexivity]. destruct (l_on (t_loop t)); [|reflexivity]. apply plain_reschedule, Et.
Qed.
Lemma insert_alter {A} (f : A -> A) i x (l : list A) : l !! i = Some x -> <[i := f x]> l = alter f i l.
Proof. revert i. induction l as [|y l IH]; intros [|i] H; cbn in *; try discriminate; [injection H as ->; reflexivity|]. f_equal. apply IH, H. Qed.
Lemma plain_call i t due o (w : world) : y_tasks w !! i = Some t -> plain (call i due (Some o) w) = call_task instance rejects i o (plain w).
Proof.
  intros Ht. unfold Slow.call. rewrite Ht. set (l := Loop _ None _ _). set (w1 := add_call _ _).
  assert (Hp : s_tasks (plain w) !! i = Some (Task (t_wrap t) (l_on (t_loop t)))) by (rewrite plain_at, Ht; reflexivity).
  assert (H1 : y_tasks w1 !! i = Some (STask (t_wrap t) (t_int t) l)) by (cbn; rewrite alter_tasks, Nat.eqb_refl, Ht; reflexivity).
  assert (P1 : plain w1 = Svc (s_running (plain w)) (s_tasks (plain w)) (s_calls (plain w) ++ [i]) (s_reports (plain w)) (s_logged (plain w))).
  { assert (H : plain (set_loop i l w) = plain w) by (rewrite plain_loop; eapply put_same; [exact Hp|reflexivity]). rewrite <- H. unfold plain. cbn. rewrite map_app. reflexivity. }
  unfold Slow.finish. rewrite H1. cbn [t_wrap]. unfold call_task. rewrite Hp. cbn [t_wrapped]. destruct (t_wrap t); destruct o as [items|e].
  - destruct (report_metrics instance rejects items) as [r e]. rewrite plain_call_back. injection P1 as Hb Hc. unfold plain. cbn in *. rewrite Hb, Hc. reflexivity.
  - rewrite plain_call_back. injection P1 as Hb Hc. unfold plain. cbn in *. rewrite Hb, Hc, app_nil_r. reflexivity.
  - rewrite plain_call_back. exact P1.
  - unfold err_back. rewrite H1. cbn [t_loop]. rewrite plain_loop, P1. unfold put, set_tasks. cbn [s_running s_tasks s_calls s_reports s_logged l_on]. f_equal.
    symmetry. apply (insert_alter (fun t => Task (t_wrapped t) false)) in Hp as Hp'. cbn [t_wrapped] in Hp'. etransitivity; [|exact Hp']. reflexivity.
Qed.

(** the loops over all tasks *)
Definition all_tasks (b : bool) : list task -> list task * res unit := if b then start_all else stop_all.
Lemma all_cons b t rest : all_tasks b (t :: rest) = if Bool.eqb (t_on t) b then (t :: rest, Exn AssertionError) else let '(r, x) := all_tasks b rest in (Task (t_wrapped t) b :: r, x).
Proof. destruct b; cbn; destruct (t_on t); reflexivity. Qed.
Definition ints (w : world) : Prop := Forall (fun t => 0 <= t_int t) (y_tasks w).
Lemma put_middle i b (s : svc V) pre t rest : s_tasks s = pre ++ t :: rest -> length pre = i -> put i b s = set_tasks (pre ++ Task (t_wrapped t) b :: rest) s.
Proof.
  intros H Hl. unfold put. rewrite H. f_equal. subst i. clear H. induction pre as [|x pre IH]; [reflexivity|]. cbn. f_equal. exact IH.
Qed.
Lemma ints_loop i l (w : world) : ints w -> ints (set_loop i l w).
Proof.
  intros H. unfold ints in *. apply Forall_lookup. intros j t. cbn. rewrite alter_tasks. rewrite Forall_lookup in H. destruct (Nat.eqb i j); [|apply H].
  destruct (y_tasks w !! j) eqn:E; [|discriminate]. cbn. intros [= <-]. cbn. exact (H _ _ E).
Qed.
Definition turns (b : bool) (f : nat -> world -> world * res unit) : Prop := forall i t (w : world), ints w -> y_tasks w !! i = Some t ->
  if Bool.eqb (l_on (t_loop t)) b then f i w = (w, Exn AssertionError)
  else snd (f i w) = Ok tt /\ plain (fst (f i w)) = put i b (plain w) /\ ints (fst (f i w)) /\ length (y_tasks (fst (f i w))) = length (y_tasks w).
Lemma each_plain b f : turns b f -> forall n k (w : world) pre rest, ints w -> s_tasks (plain w) = pre ++ rest -> length pre = k -> length rest = n ->
  plain (fst (each f (seq k n) w)) = set_tasks (pre ++ fst (all_tasks b rest)) (plain w) /\ snd (each f (seq k n) w) = snd (all_tasks b rest).
Proof.
  intros Hf n. induction n as [|n IH]; intros k w pre rest Hi Ht Hk Hn.
  - destruct rest; [|discriminate]. destruct b; cbn; (split; [|reflexivity]); rewrite <- Ht; destruct (plain w); reflexivity.
  - destruct rest as [|t rest]; [discriminate|]. cbn [seq each].
    destruct (y_tasks w !! k) as [st|] eqn:Es.
    + assert (Et : t = Task (t_wrap st) (l_on (t_loop st))). { pose proof (plain_at w k) as H. rewrite Ht, Es, list_lookup_middle in H by auto. cbn in H. congruence. }
      pose proof (Hf k st w Hi Es) as H. rewrite all_cons, Et. cbn [t_on t_wrapped]. destruct (Bool.eqb (l_on (t_loop st)) b).
      * rewrite H. cbn. split; [|reflexivity]. rewrite <- Et, <- Ht. destruct (plain w); reflexivity.
      * destruct H as (H1 & H2 & H3 & H4). destruct (f k w) as [w1 [[]|e]]; cbn [fst snd] in *; [|discriminate].
        rewrite (put_middle k b _ _ _ _ Ht Hk) in H2.
        destruct (IH (S k) w1 (pre ++ [Task (t_wrapped t) b]) rest H3) as [I1 I2]; [rewrite H2, <- app_assoc; reflexivity|rewrite app_length; cbn; lia|cbn in Hn; lia|].
        rewrite I1, I2, H2. rewrite <- app_assoc. destruct (all_tasks b rest) as [r x]. cbn. rewrite Et. split; reflexivity.
    + exfalso. pose proof (plain_at w k) as H. rewrite Ht, Es, list_lookup_middle in H by auto. discriminate.
Qed.
Lemma ints_reschedule i t (w : world) : ints w -> ints (reschedule i t w).
Proof. intros H. unfold reschedule. destruct (t_int t =? 0); apply (ints_loop i _ w H). Qed.
Lemma start_turns : turns true (fun i => start i None).
Proof.
  intros i t w Hi Ht. unfold Slow.start. rewrite Ht. destruct (l_on (t_loop t)) eqn:Eo; cbn [Bool.eqb]; [reflexivity|].
  destruct (Z.ltb_spec (t_int t) 0) as [Hneg|_]; [unfold ints in Hi; rewrite Forall_lookup in Hi; specialize (Hi _ _ Ht); cbn in Hi; lia|]. cbn [fst snd].
  set (l := Loop true _ _ _). split; [reflexivity|]. rewrite plain_reschedule by (cbn; rewrite alter_tasks, Nat.eqb_refl, Ht; reflexivity). rewrite plain_loop. split; [reflexivity|].
  split; [apply ints_reschedule, ints_loop, Hi|]. unfold reschedule. cbn [t_int]. destruct (t_int t =? 0); cbn; rewrite !alter_length; reflexivity.
Qed.
Lemma stop_turns : turns false (@stop V).
Proof.
  intros i t w Hi Ht. unfold Slow.stop. rewrite Ht. destruct (l_on (t_loop t)) eqn:Eo; cbn [Bool.eqb]; [|reflexivity]. cbn [fst snd]. split; [reflexivity|].
  destruct (l_call (t_loop t)); (split; [apply (plain_loop i (Loop false None _ _) w)|]); (split; [apply (ints_loop i _ w Hi)|cbn; apply alter_length]).
Qed.
Lemma finish_open i o (w : world) : y_open (finish i o w) = y_open w.
Proof.
  destruct (y_tasks w !! i) as [t|] eqn:Et; [|unfold Slow.finish; rewrite Et; reflexivity]. destruct (finish_tells i t o w Et) as (? & ? & _ & _ & _ & _ & H). exact H.
Qed.
Lemma ints_call_back i (w : world) : ints w -> ints (call_back i w).
Proof. intros H. unfold call_back. destruct (y_tasks w !! i) as [t|]; [|exact H]. destruct (l_on (t_loop t)); [apply ints_reschedule|]; exact H. Qed.
Lemma ints_finish i o (w : world) : ints w -> ints (finish i o w).
Proof.
  intros H. unfold Slow.finish. destruct (y_tasks w !! i) as [t|] eqn:Et; [|exact H].
  destruct (t_wrap t); destruct o as [items|e]; [destruct (report_metrics instance rejects items)| | |]; try (apply ints_call_back; exact H).
  unfold err_back. rewrite Et. apply ints_loop, H.
Qed.
Lemma ints_call i due o (w : world) : ints w -> ints (call i due o w).
Proof.
  intros H. unfold Slow.call. destruct (y_tasks w !! i) as [t|] eqn:Et; [|exact H]. destruct o as [r|]; [apply ints_finish; apply (ints_loop i _ w H)|apply (ints_loop i _ w H)].
Qed.
Lemma ints_start i first (w : world) : ints w -> ints (fst (start i first w)).
Proof.
  intros H. unfold Slow.start. destruct (y_tasks w !! i) as [t|]; [|exact H]. destruct (l_on (t_loop t)); [exact H|]. destruct (t_int t <? 0); [exact H|]. cbn [fst].
  destruct first; [apply ints_call|apply ints_reschedule]; apply ints_loop, H.
Qed.
Lemma ints_stop i (w : world) : ints w -> ints (fst (stop i w)).
Proof.
  intros H. unfold Slow.stop. destruct (y_tasks w !! i) as [t|]; [|exact H]. destruct (l_on (t_loop t)); [|exact H]. cbn [fst]. destruct (l_call (t_loop t)); apply (ints_loop i _ w H).
Qed.
Lemma start_open i (o : outcome) (w : world) : y_open (fst (start i (Some (Some o)) w)) = y_open w.
Proof.
  unfold Slow.start. destruct (y_tasks w !! i) as [t|] eqn:Et; [|reflexivity]. destruct (l_on (t_loop t)); [reflexivity|]. destruct (t_int t <? 0); [reflexivity|]. cbn [fst].
  unfold Slow.call. cbn. rewrite alter_tasks, Nat.eqb_refl, Et. cbn. rewrite finish_open. reflexivity.
Qed.
Lemma finv_step e (w : world) : finv w -> fast e -> finv (fst (wstep e w)).
Proof.
  intros (Hw & Ho & Hi) Hf. split; [apply wstep_ok; [exact Hw|]; intros _ i t _ _; rewrite Ho; reflexivity|].
  destruct e as [wr int o| | |dt|j o|j o]; cbn [Slow.wstep fast] in *.
  - destruct Hf as [Hint Hsome]. destruct o as [o|]; [|contradiction]. set (w1 := World _ _ (y_tasks w ++ _) _ _ _ _ _ _).
    assert (Hi1 : ints w1) by (unfold ints; cbn; apply Forall_app; split; [exact Hi|]; repeat constructor; exact Hint).
    destruct (y_running w); [|split; [exact Ho|exact Hi1]]. split; [|apply (ints_start _ _ _ Hi1)]. rewrite start_open. exact Ho.
  - set (w1 := set_on true w). assert (H : y_open (fst (each (fun i => start i None) (seq 0 (length (y_tasks w))) w1)) = [] /\ ints (fst (each (fun i => start i None) (seq 0 (length (y_tasks w))) w1))); [|exact H].
    apply (each_ok _ (fun w => y_open w = [] /\ ints w)); [|split; [exact Ho|exact Hi]]. intros i w0 [A B]. split; [|apply ints_start, B]. destruct (start_same i w0) as (_ & _ & _ & ->). exact A.
  - assert (H : y_open (fst (each stop (seq 0 (length (y_tasks w))) w)) = [] /\ ints (fst (each stop (seq 0 (length (y_tasks w))) w))).
    { apply (each_ok _ (fun w => y_open w = [] /\ ints w)); [|split; [exact Ho|exact Hi]]. intros i w0 [A B]. split; [|apply ints_stop, B]. destruct (stop_same i w0) as (_ & _ & _ & ->). exact A. }
    destruct (each stop _ w) as [w1 [x|e]]; exact H.
  - split; [exact Ho|exact Hi].
  - destruct o as [o|]; [|contradiction]. destruct (y_due w !! j) as [[[id i] t]|]; [|split; [exact Ho|exact Hi]]. destruct (t <=? y_now w); [|split; [exact Ho|exact Hi]]. cbn [fst].
    split; [|apply (ints_call i t (Some o) (set_due (delete j (y_due w)) w) Hi)]. unfold Slow.call. cbn. destruct (y_tasks w !! i) as [tk|] eqn:Et; [|exact Ho]. rewrite finish_open. exact Ho.
  - rewrite Ho. cbn. split; [exact Ho|exact Hi].
Qed.
Lemma fast_step e (w : world) : finv w -> fast e ->
  match untimed e w with
  | Some e' => sstep instance rejects e' (plain w) = (plain (fst (wstep e w)), snd (wstep e w))
  | None => plain (fst (wstep e w)) = plain w /\ snd (wstep e w) = Ok tt
  end.
Proof.
  intros (Hw & Ho & Hi) Hf. destruct e as [wr int o| | |dt|j o|j o]; cbn [Slow.wstep fast untimed] in *.
  - destruct Hf as [Hint Hsome]. destruct o as [o|]; [|contradiction]. set (w1 := World _ _ (y_tasks w ++ _) _ _ _ _ _ _). cbn [sstep].
    assert (Hl : y_tasks w1 !! length (y_tasks w) = Some (STask wr int loop_new)) by (cbn; apply list_lookup_middle; reflexivity).
    assert (P1 : plain w1 = set_tasks (s_tasks (plain w) ++ [Task wr false]) (plain w)) by (unfold plain, set_tasks; cbn; rewrite map_app; reflexivity).
    change (s_running (plain w)) with (y_running w). rewrite <- P1. assert (Hr : y_running w1 = y_running w) by reflexivity. destruct (y_running w); [|reflexivity].
    unfold Slow.start. rewrite Hl. cbn [t_loop loop_new l_on t_int t_wrap]. destruct (Z.ltb_spec int 0); [lia|]. cbn [fst snd]. set (l := Loop _ _ _ _). f_equal.
    rewrite (plain_call _ (STask wr int l)) by (cbn; rewrite alter_tasks, Nat.eqb_refl; cbn in Hl; rewrite Hl; reflexivity). rewrite plain_loop.
    assert (Hlen : length (s_tasks (plain w)) = length (y_tasks w)) by (unfold plain; cbn; apply map_length). rewrite Hlen. f_equal.
    rewrite P1. rewrite (put_middle _ _ _ (s_tasks (plain w)) (Task wr false) []); [reflexivity|reflexivity|exact Hlen].
  - cbn [sstep]. set (w1 := set_on true w). destruct (each_plain true _ start_turns (length (y_tasks w)) 0 w1 [] (s_tasks (plain w1))) as [H1 H2]; [exact Hi|reflexivity|reflexivity|unfold plain; cbn; apply map_length|].
    change (set_running true (plain w)) with (plain w1). unfold all_tasks in *. destruct (start_all (s_tasks (plain w1))) as [ts r]. cbn [fst snd app] in *. rewrite H1, H2. reflexivity.
  - cbn [sstep]. destruct (each_plain false _ stop_turns (length (y_tasks w)) 0 w [] (s_tasks (plain w))) as [H1 H2]; [exact Hi|reflexivity|reflexivity|unfold plain; cbn; apply map_length|].
    unfold all_tasks in *. destruct (stop_all (s_tasks (plain w))) as [ts r]. cbn [fst snd app] in *. destruct (each stop _ w) as [w1 [[]|e]]; cbn [fst snd] in *; subst r; rewrite <- H1; reflexivity.
  - split; reflexivity.
  - destruct o as [o|]; [|contradiction]. destruct (y_due w !! j) as [[[id i] t]|] eqn:Ej; [|split; reflexivity]. destruct (t <=? y_now w); [|split; reflexivity]. cbn [fst snd sstep].
    pose proof Hw as [Hg Hti]. assert (Hlen : (i < length (y_tasks w))%nat) by (pose proof (g_due _ Hg) as G; rewrite Forall_lookup in G; exact (G _ _ Ej)).
    destruct (lookup_lt_is_Some_2 _ _ Hlen) as [tk Htk]. rewrite plain_at, Htk. cbn [fmap option_fmap option_map t_on].
    assert (Hon : l_on (t_loop tk) = true).
    { destruct (l_on (t_loop tk)) eqn:E; [reflexivity|]. exfalso. destruct (Hti i tk Htk) as [_ Hs]. unfold shape in Hs. rewrite E in Hs. destruct Hs as [Hs _].
      assert (Hin : In (id, t) (dues i (y_due w))) by (apply dues_In, elem_of_list_In; eapply elem_of_list_lookup_2, Ej). rewrite Hs in Hin. contradiction. }
    rewrite Hon. f_equal. symmetry. apply (plain_call i tk t o (set_due (delete j (y_due w)) w)). exact Htk.
  - rewrite Ho. cbn. split; reflexivity.
Qed.
Fixpoint untimed_all (h : list (wevent V)) (w : world) : list (sevent V) :=
  match h with
  | [] => []
  | e :: h' => match untimed e w with Some e' => [e'] | None => [] end ++ untimed_all h' (fst (wstep e w))
  end.
Fixpoint results (h : list (wevent V)) (w : world) : list (res unit) :=
  match h with
  | [] => []
  | e :: h' => match untimed e w with Some _ => [snd (wstep e w)] | None => [] end ++ results h' (fst (wstep e w))
  end.
Lemma fast_run h : forall w, finv w -> Forall fast h -> sruns instance rejects (untimed_all h w) (plain w) = (plain (wrun h w), results h w).
Proof.
  induction h as [|e h IH]; intros w Hw Hf; [reflexivity|]. inversion Hf as [|? ? He Hh]; subst. pose proof (fast_step e w Hw He) as Hs. cbn [untimed_all results].
  specialize (IH _ (finv_step e w Hw He) Hh). destruct (untimed e w) as [e'|]; cbn [app].
  - cbn [sruns]. rewrite Hs, IH. reflexivity.
  - destruct Hs as [Hs _]. rewrite Hs in IH. exact IH.
Qed.
Lemma fast_agrees h now : Forall fast h -> sruns instance rejects (untimed_all h (world_init now)) svc_init = (plain (wrun h (world_init now)), results h (world_init now)).
Proof. apply fast_run. split; [apply winv_init|]. split; [reflexivity|constructor]. Qed.
Lemma fast_calm h : forall now, Forall fast h -> calm instance rejects h now.
Proof.
  intros now Hf h1 h2 E i t Ht Hoff. assert (H : finv (wrun h1 (world_init now))).
  { subst h. apply Forall_app in Hf as [Hf _]. clear Ht. induction h1 as [|e h1 IH] using rev_ind; [split; [apply winv_init|]; split; [reflexivity|constructor]|].
    apply Forall_app in Hf as [H1 H2]. inversion H2; subst. rewrite wrun_snoc. apply finv_step; auto. }
  destruct H as (_ & Ho & _). rewrite Ho. reflexivity.
Qed.
End more.
