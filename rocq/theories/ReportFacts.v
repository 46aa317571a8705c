(** The reporting service and the inspector meet ReportSpec. *)
From Verif Require Import Base Report ReportSpec.

(** ** the reporting service *)
Section service.
Context {V : Type} (instance : str) (rejects : str -> V -> option exn).
Local Notation sstep := (sstep instance rejects).
Local Notation sruns := (sruns instance rejects).
Lemma named_fun n q : named instance n q <-> q = (if nonempty instance then instance ++ B "." ++ n else n).
Proof.
  split.
  - intros [H|H]; [rewrite H; reflexivity|]. destruct instance; [contradiction|reflexivity].
  - intros ->. destruct instance as [|c i] eqn:E; cbn [nonempty].
    + apply nm_plain. reflexivity.
    + apply (nm_instance (c :: i)). discriminate.
Qed.
Lemma delivers_iff items r l : delivers instance rejects items r l <->
  report_metrics instance rejects items = (r, match l with [] => None | e :: _ => Some e end) /\ (length l <= 1)%nat.
Proof.
  revert r l. induction items as [|[n v] items IH]; intros r l; cbn [report_metrics].
  - split.
    + intros H; inversion H; subst. split; [reflexivity|cbn; lia].
    + intros [H Hl]. inversion H; subst. destruct l; [constructor|discriminate].
  - split.
    + intros H; inversion H as [|? q ? ? r' l' Hn Hr Hd|? q ? ? e Hn Hr]; subst.
      * apply named_fun in Hn. rewrite <- Hn, Hr. apply IH in Hd as [Hd Hl]. rewrite Hd. split; [reflexivity|exact Hl].
      * apply named_fun in Hn. rewrite <- Hn, Hr. split; [reflexivity|cbn; lia].
    + intros [H Hl]. set (q := if nonempty instance then instance ++ B "." ++ n else n) in *.
      assert (Hq : named instance n q) by (apply named_fun; reflexivity).
      destruct (rejects q v) as [e|] eqn:Er.
      * inversion H; subst. destruct l as [|e' l]; inversion H; subst. destruct l; [|cbn in Hl; lia].
        apply dv_refused with (q := q); assumption.
      * destruct (report_metrics instance rejects items) as [r' e'] eqn:E. inversion H; subst.
        apply dv_item; [exact Hq|exact Er|]. apply IH. split; [reflexivity|exact Hl].
Qed.
Lemma delivers_total items : exists r l, delivers instance rejects items r l.
Proof.
  destruct (report_metrics instance rejects items) as [r [e|]] eqn:E.
  - exists r, [e]. apply delivers_iff. split; [exact E|cbn; lia].
  - exists r, []. apply delivers_iff. split; [exact E|cbn; lia].
Qed.

Definition told (on : bool) (ws : list bool) (c : list nat) (r : list (str * V)) (l : list exn) : svc V :=
  Svc on (map (fun w => Task w on) ws) c r l.
Lemma start_all_off ws : start_all (map (fun w => Task w false) ws) = (map (fun w => Task w true) ws, Ok tt).
Proof. induction ws as [|w ws IH]; [reflexivity|]. cbn. rewrite IH. reflexivity. Qed.
Lemma stop_all_on ws : stop_all (map (fun w => Task w true) ws) = (map (fun w => Task w false) ws, Ok tt).
Proof. induction ws as [|w ws IH]; [reflexivity|]. cbn. rewrite IH. reflexivity. Qed.
Lemma at_map (ws : list bool) on i : map (fun w => Task w on) ws !! i = (fun w => Task w on) <$> nth_error ws i.
Proof. revert i. induction ws as [|w ws IH]; intros [|i]; try reflexivity. apply IH. Qed.
Lemma call_ok ws c r l i w o r' l' : nth_error ws i = Some w -> one_call instance rejects w o r' l' ->
  call_task instance rejects i o (told true ws c r l) = told true ws (c ++ [i]) (r ++ r') (l ++ l').
Proof.
  intros Hi H. unfold call_task, told. cbn [s_tasks]. rewrite at_map, Hi. cbn.
  destruct H as [items r' l' H|e|items]; cbn.
  - apply delivers_iff in H as [-> Hl]. destruct l' as [|e l']; [reflexivity|]. destruct l'; [reflexivity|cbn in Hl; lia].
  - rewrite app_nil_r. reflexivity.
  - rewrite !app_nil_r. reflexivity.
Qed.
Lemma sruns_app h e s : fst (sruns (h ++ [e]) s) = fst (sstep e (fst (sruns h s))) /\
  snd (sruns (h ++ [e]) s) = snd (sruns h s) ++ [snd (sstep e (fst (sruns h s)))].
Proof.
  revert s. induction h as [|x h IH]; intros s; cbn [app Report.sruns].
  - cbn [fst snd]. destruct (sstep e s) as [s1 r]. split; reflexivity.
  - destruct (sstep x s) as [s1 r]. destruct (IH s1) as [H1 H2].
    destruct (sruns (h ++ [e]) s1) as [s2 rs]. destruct (sruns h s1) as [s3 rs3]. cbn [fst snd] in *. subst. split; reflexivity.
Qed.
Theorem story_ok h on ws c r l : story instance rejects h on ws c r l ->
  sruns h svc_init = (told on ws c r l, map (fun _ => Ok tt) h).
Proof.
  intros H. enough (fst (sruns h svc_init) = told on ws c r l /\ snd (sruns h svc_init) = map (fun _ => Ok tt) h) as [H1 H2]
    by (destruct (sruns h svc_init); cbn in *; congruence).
  induction H as [|h ws c r l w o H IH|h ws c r l w o r' l' H IH Hc|h ws c r l H IH|h ws c r l H IH|h ws c r l i o H IH
    |h ws c r l i o w r' l' H IH Hi Hc|h on ws c r l i o H IH Hi]; [split; reflexivity|..];
    destruct IH as [I1 I2].
  - destruct (sruns_app h (ESchedule w o) svc_init) as [-> ->]. rewrite I1, I2, map_app. cbn.
    unfold told, set_tasks. cbn. rewrite map_app. split; reflexivity.
  - destruct (sruns_app h (ESchedule w o) svc_init) as [-> ->]. rewrite I1, I2, map_app. cbn [Report.sstep told s_running s_tasks fst snd].
    rewrite map_length.
    change (set_tasks (map (fun w0 => Task w0 true) ws ++ [Task w true]) (Svc true (map (fun w0 => Task w0 true) ws) c r l))
      with (Svc true (map (fun w0 => Task w0 true) ws ++ [Task w true]) c r l).
    replace (map (fun w0 => Task w0 true) ws ++ [Task w true]) with (map (fun w0 => Task w0 true) (ws ++ [w])) by (rewrite map_app; reflexivity).
    split; [|reflexivity]. fold (told true (ws ++ [w]) c r l).
    apply call_ok with (w := w); [|exact Hc]. rewrite nth_error_app2 by lia. rewrite Nat.sub_diag. reflexivity.
  - destruct (sruns_app h EStart svc_init) as [-> ->]. rewrite I1, I2, map_app. cbn.
    rewrite start_all_off. split; reflexivity.
  - destruct (sruns_app h EStop svc_init) as [-> ->]. rewrite I1, I2, map_app. cbn.
    rewrite stop_all_on. split; reflexivity.
  - destruct (sruns_app h (ETick i o) svc_init) as [-> ->]. rewrite I1, I2, map_app. cbn [Report.sstep told s_tasks].
    rewrite at_map. destruct (nth_error ws i); cbn; split; reflexivity.
  - destruct (sruns_app h (ETick i o) svc_init) as [-> ->]. rewrite I1, I2, map_app. cbn [Report.sstep told s_tasks].
    rewrite at_map, Hi. cbn [fmap option_fmap option_map t_on fst snd]. split; [|reflexivity].
    fold (told true ws c r l). apply call_ok with (w := w); assumption.
  - destruct (sruns_app h (ETick i o) svc_init) as [-> ->]. rewrite I1, I2, map_app. cbn [Report.sstep told s_tasks].
    rewrite at_map, Hi. cbn. split; reflexivity.
Qed.
Theorem story_total h : forall pre on ws c r l, story instance rejects pre on ws c r l -> sound on ws h ->
  exists on' ws' c' r' l', story instance rejects (pre ++ h) on' ws' c' r' l'.
Proof.
  induction h as [|e h IH]; intros pre on ws c r l Hs Hg; [rewrite app_nil_r; eauto 10|].
  assert (Hnext : forall on' ws' c' r' l', story instance rejects (pre ++ [e]) on' ws' c' r' l' -> sound on' ws' h ->
     exists on' ws' c' r' l', story instance rejects (pre ++ e :: h) on' ws' c' r' l').
  { intros on' ws' c' r' l' H1 H2. destruct (IH (pre ++ [e]) on' ws' c' r' l' H1 H2) as (a & b & d & f & g & H).
    rewrite <- app_assoc in H. eauto 10. }
  assert (Hcall : forall w o, (w = false -> exists x, o = Ok x) -> exists r' l', one_call instance rejects w o r' l').
  { intros [] o Ho.
    - destruct o as [items|x]; [|exists [], [x]; constructor]. destruct (delivers_total items) as (r' & l' & Hd).
      exists r', l'. constructor. exact Hd.
    - destruct (Ho eq_refl) as (x & ->). exists [], []. constructor. }
  destruct e as [w o| | |i o]; cbn [sound] in Hg.
  - destruct Hg as [Ho Hg]. destruct on.
    + destruct (Hcall w o) as (r' & l' & Hc); [intros ->; apply Ho; reflexivity|].
      eapply Hnext; [eapply st_schedule_on; eassumption|exact Hg].
    + eapply Hnext; [apply st_schedule; eassumption|exact Hg].
  - destruct Hg as [-> Hg]. eapply Hnext; [apply st_start; eassumption|exact Hg].
  - destruct Hg as [-> Hg]. eapply Hnext; [apply st_stop; eassumption|exact Hg].
  - destruct Hg as [Ho Hg]. destruct (nth_error ws i) as [w|] eqn:Ei.
    + destruct on.
      * destruct (Hcall w o) as (r' & l' & Hc); [intros ->; apply Ho; reflexivity|].
        eapply Hnext; [eapply st_tick; eassumption|exact Hg].
      * eapply Hnext; [apply st_tick_off; eassumption|exact Hg].
    + eapply Hnext; [apply st_tick_none; eassumption|exact Hg].
Qed.
(** a function scheduled without a report function raises: the service cannot be
    stopped any more *)
Lemma stop_all_broken ws i : nth_error ws i = Some false ->
  stop_all (<[i := Task false false]> (map (fun w => Task w true) ws)) =
  (map (fun w => Task w false) (firstn i ws) ++ Task false false :: map (fun w => Task w true) (skipn (S i) ws), Exn AssertionError).
Proof.
  revert i. induction ws as [|w ws IH]; intros [|i] Hi; try discriminate.
  - cbn in Hi. inversion Hi; subst. reflexivity.
  - cbn [map]. change (<[S i:=Task false false]> (Task w true :: map (fun w0 => Task w0 true) ws))
      with (Task w true :: <[i:=Task false false]> (map (fun w0 => Task w0 true) ws)).
    cbn [stop_all t_on]. rewrite IH by exact Hi. reflexivity.
Qed.
Theorem wrong_state h on w ws c r l : story instance rejects h on (w :: ws) c r l ->
  sruns (h ++ [if on then EStart else EStop]) svc_init =
    (Svc on (map (fun w => Task w on) (w :: ws)) c r l, map (fun _ => Ok tt) h ++ [Exn AssertionError]).
Proof.
  intros H. apply story_ok in H. destruct (sruns_app h (if on then EStart else EStop) svc_init) as [E1 E2]. rewrite H in E1, E2. cbn [fst snd] in E1, E2.
  destruct (sruns (h ++ _) svc_init) as [s rs]. cbn [fst snd] in E1, E2. subst. destruct on; reflexivity.
Qed.
Theorem bare_failure h ws c r l i e : story instance rejects h true ws c r l -> nth_error ws i = Some false ->
  sruns (h ++ [ETick i (Exn e); EStop]) svc_init =
    (Svc true (map (fun w => Task w false) (firstn i ws) ++ Task false false :: map (fun w => Task w true) (skipn (S i) ws))
         (c ++ [i]) r l,
     map (fun _ => Ok tt) h ++ [Ok tt; Exn AssertionError]).
Proof.
  intros H Hi. apply story_ok in H.
  change [ETick i (Exn e); EStop] with ([ETick i (Exn e)] ++ [EStop (V := V)]). rewrite app_assoc.
  destruct (sruns_app (h ++ [ETick i (Exn e)]) EStop svc_init) as [E1 E2].
  destruct (sruns_app h (ETick i (Exn e)) svc_init) as [F1 F2].
  rewrite H in F1, F2. cbn [fst snd] in F1, F2.
  assert (Hstep : sstep (ETick i (Exn e)) (told true ws c r l) =
    (Svc true (<[i := Task false false]> (map (fun w => Task w true) ws)) (c ++ [i]) r l, Ok tt)).
  { unfold told. cbn [Report.sstep s_tasks]. rewrite at_map, Hi. cbn [fmap option_fmap option_map t_on].
    unfold call_task. cbn [s_tasks]. rewrite at_map, Hi. reflexivity. }
  rewrite Hstep in F1, F2. rewrite F1 in E1. rewrite F1, F2 in E2. cbn [fst snd] in E1, E2.
  cbn [Report.sstep s_tasks] in E1, E2. rewrite stop_all_broken in E1, E2 by exact Hi. cbn [fst snd] in E1, E2.
  destruct (sruns ((h ++ [ETick i (Exn e)]) ++ [EStop]) svc_init) as [s rs]. cbn [fst snd] in E1, E2. subst.
  rewrite <- app_assoc. reflexivity.
Qed.
End service.

(** ** the inspector *)
Section inspector.
Context {T : Type} (minus : T -> T -> T).
Local Notation iruns := (iruns minus).
Local Notation istep := (istep minus).
Lemma iruns_app h e : iruns (h ++ [e]) = istep e (iruns h).
Proof. unfold Report.iruns. rewrite fold_left_app. reflexivity. Qed.
(** numbers given out so far are below this *)
Definition limit (s : insp (T := T)) : Z := match i_phase s with PSleep => i_msg s | _ => i_msg s - 1 end.
Definition iinv (s : insp (T := T)) : Prop :=
  i_phase s <> PFail /\
  Forall (fun p => 0 <= fst p <= limit s) (i_pending s) /\
  Forall (fun q => 0 <= fst (fst q) <= limit s) (i_queue s) /\
  map (fun o => fst (fst o)) (i_out s) = map Z.of_nat (seq 0 (length (i_out s))) /\
  i_msg s = Z.of_nat (length (i_out s)) /\
  (i_started s = true -> is_Some (i_oldest s)) /\
  (i_phase s <> PNew -> i_started s = true) /\
  (i_started s = false -> i_phase s = PNew /\ i_pending s = [] /\ i_queue s = [] /\ i_msg s = 0).
Lemma out_grow (out : list (Z * verdict * T)) v d : map (fun o => fst (fst o)) out = map Z.of_nat (seq 0 (length out)) ->
  map (fun o => fst (fst o)) (out ++ [(Z.of_nat (length out), v, d)]) = map Z.of_nat (seq 0 (length (out ++ [(Z.of_nat (length out), v, d)]))).
Proof. intros H. rewrite map_app, app_length, seq_app, map_app, H. reflexivity. Qed.
Lemma iinv_step e s : iinv s -> iinv (istep e s).
Proof.
  intros Hinv. pose proof Hinv as (H1 & H2 & H3 & H4 & H5 & H6 & H7 & H8). destruct e as [now| |now|j now|now]; cbn [Report.istep].
  - destruct (i_started s) eqn:Es; [exact Hinv|]. destruct (H8 eq_refl) as (P1 & P2 & P3 & P4).
    unfold iinv, limit. cbn. rewrite P2, P3. rewrite P4 in H5. repeat split; try discriminate; try constructor; auto; try congruence.
  - unfold iinv, limit in *. cbn. repeat split; auto; apply H8; assumption.
  - destruct (i_phase s) eqn:Ep; try exact Hinv. destruct (i_stopped s) eqn:Est.
    + unfold iinv, limit in *. cbn. rewrite Ep in *. repeat split; auto; try discriminate; destruct (H8 H); discriminate || auto.
    + unfold iinv, limit in *. cbn [i_phase i_pending i_queue i_out i_msg i_started i_oldest]. rewrite Ep in *.
      split; [discriminate|]. split.
      { apply Forall_app. split; [eapply Forall_impl; [exact H2|]; intros p Hp; cbn in Hp |- *; lia|]. constructor; [cbn; lia|constructor]. }
      split; [eapply Forall_impl; [exact H3|]; intros p Hp; cbn in Hp |- *; lia|]. split; [exact H4|]. split; [exact H5|]. split; [exact H6|].
      split; [intros _; apply H7; discriminate|]. intros H. destruct (H8 H) as [Hx _]; discriminate.
  - destruct (i_pending s !! j) as [[id tini]|] eqn:Ej; [|exact Hinv].
    unfold iinv, limit in *. cbn. split; [exact H1|]. split; [apply Forall_delete, H2|].
    split. { apply Forall_app. split; [exact H3|]. constructor; [|constructor]. cbn.
             pose proof (proj1 (Forall_lookup _ _) H2 j (id, tini) Ej) as Hp. exact Hp. }
    split; [exact H4|]. split; [exact H5|]. split; [exact H6|]. split; [exact H7|].
    intros H. destruct (H8 H) as (_ & Hp & _). rewrite Hp in Ej. discriminate.
  - destruct (i_phase s) eqn:Ep; try exact Hinv. destruct (i_oldest s) as [oldest|] eqn:Eo; [|exact Hinv].
    assert (Hst : i_started s = true) by (apply H7; discriminate).
    unfold limit in H2, H3. rewrite Ep in H2, H3.
    assert (Hp : Forall (fun p : Z * T => 0 <= fst p <= i_msg s + 1 - 1) (i_pending s)).
    { eapply Forall_impl; [exact H2|]. intros p Hq. cbn in Hq. lia. }
    destruct (i_queue s) as [|[[id tini] tsent] rest] eqn:Eq.
    + unfold iinv, limit. cbn. rewrite H5. split; [discriminate|]. split; [rewrite <- H5; exact Hp|]. split; [constructor|].
      split; [apply out_grow, H4|]. split; [rewrite app_length; cbn; lia|]. split; [eauto|]. split; [auto|]. intros E; congruence.
    + inversion H3 as [|? ? Hid Hrest]; subst. cbn in Hid.
      destruct (id <? i_msg s) eqn:El.
      * unfold iinv, limit. cbn. rewrite H5. split; [discriminate|]. split; [rewrite <- H5; exact Hp|]. split; [constructor|].
        split; [apply out_grow, H4|]. split; [rewrite app_length; cbn; lia|]. split; [eauto|]. split; [auto|]. intros E; congruence.
      * apply Z.ltb_ge in El. assert (i_msg s = id) as E by lia. rewrite (proj2 (Z.eqb_eq _ _) E).
        unfold iinv, limit. cbn. rewrite H5. split; [discriminate|]. split; [rewrite <- H5; exact Hp|].
        split; [eapply Forall_impl; [exact Hrest|]; intros q Hq; cbn in Hq; lia|].
        split; [apply out_grow, H4|]. split; [rewrite app_length; cbn; lia|]. split; [eauto|]. split; [auto|]. intros E'; congruence.
Qed.
Lemma iinv_init : iinv insp_init.
Proof. unfold iinv, limit. cbn. repeat split; try discriminate; try constructor; auto. Qed.
Theorem iinv_all h : iinv (iruns h).
Proof.
  induction h as [|e h IH] using rev_ind; [apply iinv_init|]. rewrite iruns_app. apply iinv_step, IH.
Qed.
(** the inspector never fails; probes are numbered; one report per probe *)
Theorem inspector_never_fails h : i_phase (iruns h) <> PFail.
Proof. apply iinv_all. Qed.
Theorem reports_numbered h : map (fun o => fst (fst o)) (i_out (iruns h)) = map Z.of_nat (seq 0 (length (i_out (iruns h)))).
Proof. apply iinv_all. Qed.
Theorem answers_not_newer h id t t' : In (id, t, t') (i_queue (iruns h)) -> 0 <= id <= i_msg (iruns h) /\
  (i_phase (iruns h) <> PSleep -> id < i_msg (iruns h)).
Proof.
  intros Hin. pose proof (iinv_all h) as (_ & _ & H & _).
  pose proof (proj1 (Forall_forall _ _) H (id, t, t') (proj2 (elem_of_list_In _ _) Hin)) as Hq.
  cbn in Hq. unfold limit in Hq. destruct (i_phase (iruns h)); split; try lia; intros Hx; try lia; exfalso; apply Hx; reflexivity.
Qed.
(** exactly one report per probe that was slept on *)
Theorem wake_reports h t : i_phase (iruns h) = PSleep ->
  exists v d, i_out (iruns (h ++ [IWake t])) = i_out (iruns h) ++ [(Z.of_nat (length (i_out (iruns h))), v, d)] /\
              i_phase (iruns (h ++ [IWake t])) = PTest.
Proof.
  intros Hp. pose proof (iinv_all h) as (H1 & H2 & H3 & H4 & H5 & H6 & H7 & H8). rewrite iruns_app. cbn [Report.istep]. rewrite Hp.
  destruct H6 as [o Ho]; [apply H7; rewrite Hp; discriminate|]. rewrite Ho, <- H5.
  destruct (i_queue (iruns h)) as [|[[id tini] tsent] rest] eqn:Eq; [cbn; eauto|].
  destruct (id <? i_msg (iruns h)) eqn:El; [cbn; eauto|].
  unfold limit in H3. rewrite Hp in H3. inversion H3 as [|? ? Hid Hrest]; subst. cbn in Hid. apply Z.ltb_ge in El.
  rewrite (proj2 (Z.eqb_eq (i_msg (iruns h)) id)) by lia. cbn. eauto.
Qed.
Theorem only_wakes_report h e : (forall t, e <> IWake t) -> i_out (iruns (h ++ [e])) = i_out (iruns h).
Proof.
  intros He. rewrite iruns_app. destruct e as [now| |now|j now|now]; cbn [Report.istep].
  - destruct (i_started (iruns h)); reflexivity.
  - reflexivity.
  - destruct (i_phase (iruns h)); try reflexivity. destruct (i_stopped (iruns h)); reflexivity.
  - destruct (i_pending (iruns h) !! j) as [[]|]; reflexivity.
  - exfalso. exact (He now eq_refl).
Qed.

(** a reactor that answers in order *)
Definition numbered (n : nat) (l : list T) : list (Z * T) := imap (fun i t => (Z.of_nat (n + i), t)) l.
Lemma numbered_cons n t l : numbered n (t :: l) = (Z.of_nat n, t) :: numbered (S n) l.
Proof. unfold numbered. cbn. rewrite Nat.add_0_r. f_equal. apply imap_ext. intros i x _. unfold compose. f_equal. lia. Qed.
Lemma numbered_app n a b : numbered n (a ++ b) = numbered n a ++ numbered (n + length a) b.
Proof.
  revert n. induction a as [|t a IH]; intros n; cbn [app length]; [rewrite Nat.add_0_r; reflexivity|].
  rewrite !numbered_cons, IH. cbn [app]. do 3 f_equal. lia.
Qed.
(** answers [n..] paired with their probes *)
Definition arrived (n : nat) (p a : list T) : list (Z * T * T) :=
  imap (fun i '(s, t) => (Z.of_nat (n + i), s, t)) (combine (skipn n p) (skipn n a)).
Lemma arrived_all p a : arrived (length a) p a = [].
Proof. unfold arrived. rewrite skipn_all. rewrite combine_nil. reflexivity. Qed.
Lemma arrived_more n p a s t : (n <= length a)%nat -> nth_error p (length a) = Some s ->
  arrived n p (a ++ [t]) = arrived n p a ++ [(Z.of_nat (length a), s, t)].
Proof.
  intros Hn Hs. unfold arrived. rewrite skipn_app. replace (n - length a)%nat with 0%nat by lia. cbn [skipn].
  assert (G : forall (q b : list T) m, nth_error q (length b) = Some s ->
    imap (fun i '(s, t) => (Z.of_nat (m + i), s, t)) (combine q (b ++ [t])) =
    imap (fun i '(s, t) => (Z.of_nat (m + i), s, t)) (combine q b) ++ [(Z.of_nat (m + length b), s, t)]).
  { induction q as [|x q IH]; intros b m Hq; [destruct b; discriminate|]. destruct b as [|y b].
    - cbn in Hq. inversion Hq; subst. cbn. destruct q; reflexivity.
    - cbn [app combine imap length]. cbn in Hq.
      transitivity ((Z.of_nat (m + 0), x, y) :: imap (fun i '(s, t) => (Z.of_nat (S m + i), s, t)) (combine q (b ++ [t]))).
      { f_equal. apply imap_ext. intros i [? ?] _. unfold compose. do 2 f_equal. lia. }
      rewrite IH by exact Hq. cbn [app]. f_equal. f_equal.
      + apply imap_ext. intros i [? ?] _. unfold compose. do 2 f_equal. lia.
      + do 3 f_equal. lia. }
  rewrite G; [|].
  - replace (n + length (skipn n a))%nat with (length a) by (rewrite skipn_length; lia). reflexivity.
  - rewrite skipn_length. rewrite <- Hs. clear -Hn. revert n Hn. induction p as [|x p IH]; intros n Hn.
    + rewrite skipn_nil. destruct (length a - n)%nat, (length a); reflexivity.
    + destruct n as [|n]; [cbn [skipn]; f_equal; lia|]. destruct (length a) as [|m] eqn:E; [lia|].
      cbn [skipn nth_error]. replace (S m - S n)%nat with (m - n)%nat by lia.
      clear E. revert m Hn IH. intros m Hn IH'. assert (n <= m)%nat by lia. clear -H.
      revert n m H. induction p as [|y p IHp]; intros [|n] m H; cbn [skipn].
      * f_equal; lia.
      * destruct (m - S n)%nat, m; reflexivity.
      * f_equal; lia.
      * destruct m as [|m]; [lia|]. cbn [nth_error]. replace (S m - S n)%nat with (m - n)%nat by lia. apply IHp. lia.
Qed.
Theorem ledger_ok h p a n base s out : ledger minus h p a n base s out ->
  (n <= length a <= length p)%nat /\ length p = (length out + if s then 1 else 0)%nat /\
  iruns h = Insp true false (if s then PSleep else PTest) (Z.of_nat (length out)) (Some base)
                 (numbered (length a) (skipn (length a) p)) (arrived n p a) out.
Proof.
  induction 1 as [t|h p a n base t out H (Hl & Hn & IH)|h p a n base s t out H (Hl & Hn & IH) Hlt
    |h p a base t out H (Hl & Hn & IH)|h p a n base t out sent answered H (Hl & Hn & IH) Hp Ha].
  - split; [cbn; lia|]. split; [reflexivity|]. reflexivity.
  - rewrite iruns_app, IH. cbn [Report.istep i_phase i_stopped i_started i_msg i_oldest i_pending i_queue i_out].
    rewrite !app_length. cbn [length]. split; [lia|]. split; [lia|]. f_equal.
    + rewrite skipn_app. replace (length a - length p)%nat with 0%nat by lia. cbn [skipn]. rewrite numbered_app. f_equal.
      rewrite skipn_length. unfold numbered. cbn. do 3 f_equal. lia.
    + unfold arrived. rewrite skipn_app. replace (n - length p)%nat with 0%nat by lia. cbn [skipn].
      f_equal. assert (Hlen : (length (skipn n a) <= length (skipn n p))%nat) by (rewrite !skipn_length; lia).
      revert Hlen. generalize (skipn n a) as y, (skipn n p) as x. induction y as [|y0 y IHy]; intros x Hx.
      * rewrite !combine_nil. reflexivity.
      * destruct x as [|x0 x]; [cbn in Hx; lia|]. cbn. f_equal. apply IHy. cbn in Hx. lia.
  - rewrite iruns_app, IH. cbn [Report.istep i_phase i_stopped i_started i_msg i_oldest i_pending i_queue i_out].
    destruct (skipn (length a) p) as [|x rest] eqn:Er.
    { assert (length (skipn (length a) p) = 0%nat) by (rewrite Er; reflexivity). rewrite skipn_length in H0. lia. }
    rewrite numbered_cons. cbn [lookup list_lookup delete list_delete].
    rewrite app_length. cbn [length]. split; [lia|]. split; [exact Hn|].
    assert (Hx : nth_error p (length a) = Some x).
    { rewrite <- (firstn_skipn (length a) p), Er. rewrite nth_error_app2 by (rewrite firstn_length; lia).
      rewrite firstn_length. replace (length a - length a `min` length p)%nat with 0%nat by lia. reflexivity. }
    rewrite (arrived_more n p a x t) by (assumption || lia). f_equal.
    assert (skipn (length a + 1) p = rest) as ->.
    { rewrite <- drop_drop, Er. reflexivity. }
    replace (length a + 1)%nat with (S (length a)) by lia. reflexivity.
  - rewrite iruns_app, IH. cbn [Report.istep i_phase i_stopped i_started i_msg i_oldest i_pending i_queue i_out].
    rewrite arrived_all, app_length. cbn [length]. split; [lia|]. split; [lia|]. f_equal. lia.
  - rewrite iruns_app, IH. cbn [Report.istep i_phase i_stopped i_started i_msg i_oldest i_pending i_queue i_out].
    assert (Hq : exists rest, arrived n p a = (Z.of_nat n, sent, answered) :: rest /\ (n = length out -> rest = [])).
    { unfold arrived.
      assert (E1 : skipn n p = sent :: skipn (S n) p).
      { clear -Hp. revert n Hp. induction p as [|y p IHp]; intros [|n] Hp; try discriminate.
        - cbn in Hp. inversion Hp. reflexivity.
        - cbn [skipn]. apply IHp. exact Hp. }
      assert (E2 : skipn n a = answered :: skipn (S n) a).
      { clear -Ha. revert n Ha. induction a as [|y p IHp]; intros [|n] Hp; try discriminate.
        - cbn in Hp. inversion Hp. reflexivity.
        - cbn [skipn]. apply IHp. exact Hp. }
      rewrite E1, E2. cbn [combine imap]. rewrite Nat.add_0_r. eexists. split; [reflexivity|].
      intros ->. assert (skipn (S (length out)) p = []) as -> by (apply skipn_all2; lia). reflexivity. }
    destruct Hq as (rest & -> & Hrest).
    assert (Hn' : (n < length p)%nat) by (apply nth_error_Some; congruence).
    split; [cbn; lia|]. split; [rewrite app_length; cbn; lia|].
    rewrite arrived_all, app_length. cbn [length].
    destruct (Nat.eqb_spec n (length out)) as [E|E].
    + rewrite (Hrest E). rewrite E, Z.ltb_irrefl, Z.eqb_refl. f_equal. lia.
    + rewrite (proj2 (Z.ltb_lt _ _)) by lia. f_equal. lia.
Qed.

(** ** stopping *)
Theorem stop_is_final h h' : (length (i_out (iruns (h ++ IStop :: h'))) <= length (i_out (iruns h)) + 1)%nat /\
  (i_phase (iruns h) <> PSleep -> i_out (iruns (h ++ IStop :: h')) = i_out (iruns h)).
Proof.
  set (n := length (i_out (iruns h))).
  enough (G : i_stopped (iruns (h ++ IStop :: h')) = true /\
     ((i_phase (iruns (h ++ IStop :: h')) = PSleep /\ i_phase (iruns h) = PSleep /\ length (i_out (iruns (h ++ IStop :: h'))) = n) \/
      (i_phase (iruns (h ++ IStop :: h')) <> PSleep /\ (length (i_out (iruns (h ++ IStop :: h'))) <= n + 1)%nat)) /\
     (i_phase (iruns h) <> PSleep -> i_out (iruns (h ++ IStop :: h')) = i_out (iruns h))).
  { destruct G as (_ & G & G'). split; [|exact G']. destruct G as [(_ & _ & ->)|[_ H]]; lia. }
  induction h' as [|e h' IH] using rev_ind.
  - rewrite iruns_app. cbn. split; [reflexivity|]. split; [|reflexivity].
    destruct (i_phase (iruns h)) eqn:E; [right|right|left|right|right]; rewrite ?E; repeat split; try discriminate; unfold n; lia.
  - change (h ++ IStop :: h' ++ [e]) with (h ++ (IStop :: h') ++ [e]). rewrite app_assoc, iruns_app.
    set (s := iruns (h ++ IStop :: h')) in *. destruct IH as (I1 & I2 & I3).
    destruct e as [now| |now|j now|now]; cbn [Report.istep].
    + destruct (i_started s) eqn:Es; [auto|]. cbn. split; [exact I1|].
      assert (Hns : i_phase s <> PSleep).
      { intros E. pose proof (iinv_all (h ++ IStop :: h')) as (_ & _ & _ & _ & _ & _ & Hx & _). fold s in Hx. rewrite E in Hx.
        rewrite Hx in Es by discriminate. discriminate. }
      split; [|exact I3]. right. split; [discriminate|]. destruct I2 as [(E & _)|[_ H]]; [contradiction|exact H].
    + cbn. auto.
    + destruct (i_phase s) eqn:Ep; try (rewrite ?Ep; auto; fail). rewrite I1. cbn. split; [reflexivity|]. split; [|exact I3].
      right. split; [discriminate|]. destruct I2 as [(E & _)|[_ H]]; [discriminate|exact H].
    + destruct (i_pending s !! j) as [[id tini]|]; [|auto]. cbn. auto.
    + destruct (i_phase s) eqn:Ep; try (rewrite ?Ep; auto; fail).
      destruct I2 as [(_ & E & Hlen)|[E _]]; [|exfalso; apply E; reflexivity].
      destruct (i_oldest s) as [oldest|]; [|rewrite Ep; split; [exact I1|]; split; [left; auto|exact I3]].
      destruct (i_queue s) as [|[[id tini] tsent] rest]; [|destruct (id <? i_msg s); [|destruct (i_msg s =? id)]]; cbn;
        (split; [exact I1|]; split; [right; split; [discriminate|rewrite app_length; cbn; lia]|intros; contradiction]).
Qed.
End inspector.
