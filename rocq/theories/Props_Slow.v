(** C106: when the functions of a ReportingService are called, if they may take time
    (report.py:37-92 with twisted's LoopingCall).  [wrun h (world_init now)] is the service and its
    reactor after the history [h]; times are integers in any unit. *)
From Verif Require Import Base Report ReportSpec Slow SlowFacts SlowProps SlowMore Props_Report.
Open Scope Z_scope.

Section statements.
Context {V : Type} (instance : str) (rejects : str -> V -> option exn).
(** startService is only called when no function of a stopped task is still at work *)
Definition orderly (h : list (wevent V)) (now : Z) : Prop := forall h1 h2, h = h1 ++ WStart :: h2 ->
  forall i t, let w := wrun instance rejects h1 (world_init now) in y_tasks w !! i = Some t -> l_on (t_loop t) = false -> ~ In i (y_open w).
Lemma orderly_calm h now : orderly h now -> calm instance rejects h now.
Proof.
  intros H h1 h2 E i t Ht Ho. unfold opens. pose proof (H h1 h2 E i t Ht Ho) as Hn. clear -Hn. induction (y_open _) as [|k l IH]; [reflexivity|].
  cbn in *. destruct (Nat.eqb_spec i k) as [->|_]; [exfalso; apply Hn; left; reflexivity|]. apply IH. intros H. apply Hn. right. exact H.
Qed.
End statements.

(** a task that runs has one delayed call, or its function is at work, never both and never two;
    a task that does not run has none *)
Theorem C106_one_at_a_time : forall V instance (rejects : str -> V -> option exn) h now i t, orderly instance rejects h now ->
  let w := wrun instance rejects h (world_init now) in y_tasks w !! i = Some t ->
  let delayed := List.filter (fun d => Nat.eqb (snd (fst d)) i) (y_due w) in let working := count_occ Nat.eq_dec (y_open w) i in
  if l_on (t_loop t) then
    (exists id d, delayed = [(id, i, d)] /\ l_call (t_loop t) = Some id /\ working = 0%nat) \/ (delayed = [] /\ working = 1%nat)
  else delayed = [] /\ (working <= 1)%nat.
Proof. intros V instance rejects h now i t H. exact (one_at_a_time instance rejects h now i t (orderly_calm _ _ _ _ H)). Qed.
Print Assumptions C106_one_at_a_time.
(** the calls of a task are made at or after a time of the form start + k * interval, and each is
    due only after the one before was made *)
Theorem C106_on_the_grid : forall V instance (rejects : str -> V -> option exn) h now i t a, orderly instance rejects h now ->
  let w := wrun instance rejects h (world_init now) in y_tasks w !! i = Some t -> 0 < t_int t -> In a (y_calls w) -> a_task a = i ->
  a_due a <= a_at a <= y_now w /\ exists k, 0 <= k /\ a_due a = a_start a + k * t_int t.
Proof. intros V instance rejects h now i t a H. exact (on_grid instance rejects h now i t a (orderly_calm _ _ _ _ H)). Qed.
Print Assumptions C106_on_the_grid.
Theorem C106_apart : forall V instance (rejects : str -> V -> option exn) h now i t l1 a l2 b l3, orderly instance rejects h now ->
  let w := wrun instance rejects h (world_init now) in y_tasks w !! i = Some t -> 0 < t_int t ->
  y_calls w = l1 ++ a :: l2 ++ b :: l3 -> a_task a = i -> a_task b = i -> a_at a < a_due b.
Proof. intros V instance rejects h now i t l1 a l2 b l3 H. exact (apart instance rejects h now i t l1 a l2 b l3 (orderly_calm _ _ _ _ H)). Qed.
Print Assumptions C106_apart.
(** so a task started at [s] is called at most once per interval from then on *)
Theorem C106_rate : forall V instance (rejects : str -> V -> option exn) h now i t s, orderly instance rejects h now ->
  let w := wrun instance rejects h (world_init now) in y_tasks w !! i = Some t -> 0 < t_int t ->
  let n := length (List.filter (fun a => Nat.eqb (a_task a) i && (a_start a =? s)) (y_calls w)) in
  n <> 0%nat -> (Z.of_nat n - 1) * t_int t <= y_now w - s.
Proof. intros V instance rejects h now i t s H. exact (rate instance rejects h now i t s (orderly_calm _ _ _ _ H)). Qed.
Print Assumptions C106_rate.
(** whenever a call is put off, it is to the first point of the grid after now: points that passed
    while the function was at work are skipped *)
Theorem C106_next : forall V instance (rejects : str -> V -> option exn) h now e id i d t, orderly instance rejects (h ++ [e]) now ->
  let w := wrun instance rejects h (world_init now) in let w1 := fst (wstep instance rejects e w) in
  In (id, i, d) (y_due w1) -> ~ In (id, i, d) (y_due w) -> y_tasks w1 !! i = Some t -> 0 < t_int t ->
  y_now w1 < d <= y_now w1 + t_int t /\ exists k, 0 <= k /\ d = l_start (t_loop t) + k * t_int t.
Proof.
  intros V instance rejects h now e id i d t H. pose proof (orderly_calm _ _ _ _ H) as Hc.
  exact (next_call instance rejects h now e id i d t (calm_prefix _ _ _ _ _ Hc) Hc).
Qed.
Print Assumptions C106_next.
(** after stopService has returned no function is called until startService *)
Theorem C106_stopped : forall V instance (rejects : str -> V -> option exn) h now w1 h', orderly instance rejects h now ->
  wstep instance rejects WStop (wrun instance rejects h (world_init now)) = (w1, Ok tt) -> ~ In WStart h' ->
  y_calls (wrun instance rejects h' w1) = y_calls w1.
Proof.
  intros V instance rejects h now w1 h' H Hs. apply silent_run. exact (stopped_silent instance rejects h now w1 (orderly_calm _ _ _ _ H) Hs).
Qed.
Print Assumptions C106_stopped.
(** in every history at all: each call comes to an end at most once, and the reports and the log
    are those of the calls that came to an end, in that order *)
Theorem C106_reported : forall V instance (rejects : str -> V -> option exn) h now, let w := wrun instance rejects h (world_init now) in
  let done := all_ended instance rejects h (world_init now) in
  told instance rejects done (y_reports w) (y_logged w) /\ (length done + length (y_open w) = length (y_calls w))%nat.
Proof. exact @all_told. Qed.
Print Assumptions C106_reported.
(** functions that return at once: the service of C82, with the same calls, reports, log and
    exceptions *)
Theorem C106_at_once : forall V instance (rejects : str -> V -> option exn) h now, Forall fast h ->
  orderly instance rejects h now /\
  sruns instance rejects (untimed_all instance rejects h (world_init now)) svc_init =
    (plain (wrun instance rejects h (world_init now)), results instance rejects h (world_init now)).
Proof.
  intros V instance rejects h now H. split; [|exact (fast_agrees instance rejects h now H)].
  intros h1 h2 E i t w Ht Ho Hi. pose proof (fast_calm instance rejects h now H h1 h2 E i t Ht Ho) as Hz. fold w in Hz.
  rewrite opens_count in Hz. apply count_occ_In with (eq_dec := Nat.eq_dec) in Hi. lia.
Qed.
Print Assumptions C106_at_once.

(** A function scheduled every 10 from 100 on; the second call takes 25, so the points 130 and 140
    are skipped; a second one is scheduled while the service runs and called at once. *)
Definition slow_history : list (wevent Z) :=
  [WSchedule true 10 None; WStart; WWait 11; WFire 0 (Some (Ok [(B "a", 1)])); WWait 9; WFire 0 None; WWait 15;
   WSchedule true 7 (Some (Ok [(B "c", 4)])); WWait 10; WResult 0 (Ok [(B "a", 2)]); WFire 0 (Some (Exn OtherError)); WWait 5; WFire 0 (Some (Ok [(B "a", 3)])); WStop].
Definition slow_world (n : nat) := wrun (B "host") C82_rejects (firstn n slow_history) (world_init 100).
Example C106_case : orderly (B "host") C82_rejects slow_history 100 /\
  y_calls (slow_world 14) = [TCall 0 100 110 111; TCall 0 100 120 120; TCall 1 135 135 135; TCall 1 135 142 145; TCall 0 100 150 150] /\
  y_reports (slow_world 14) = [(B "host.a", 1); (B "host.c", 4); (B "host.a", 2); (B "host.a", 3)] /\ y_logged (slow_world 14) = [OtherError] /\
  y_due (slow_world 6) = [] /\ y_open (slow_world 6) = [0%nat] /\ y_due (slow_world 10) = [(2%nat, 1%nat, 142); (3%nat, 0%nat, 150)] /\ y_due (slow_world 14) = [] /\
  snd (wstep (B "host") C82_rejects WStop (slow_world 13)) = Ok tt.
Proof.
  split; [|vm_compute; repeat split; reflexivity].
  intros h1 h2 E. unfold slow_history in E. destruct h1 as [|a h1]; [discriminate|]. injection E as <- E. destruct h1 as [|b h1].
  - intros i t w _ _. cbn. auto.
  - injection E as _ E. exfalso. assert (Hin : In WStart (h1 ++ WStart :: h2)) by (apply in_or_app; right; left; reflexivity). rewrite <- E in Hin. cbn in Hin.
    repeat (destruct Hin as [Hin|Hin]; [discriminate|]). exact Hin.
Qed.
Example C106_at_once_case : Forall (fast (V := Z)) [WSchedule true 10 (Some (Ok [])); WStart; WWait 10; WFire 0 (Some (Ok [(B "a", 1)])); WStop].
Proof. repeat constructor; cbn; try lia; discriminate. Qed.
(** But a service stopped and started again while a function is at work holds two delayed calls of
    it from then on: a reactor that is late makes both at once, and stopService cancels only one of
    them, so that the function is called after it. *)
Definition restart_history : list (wevent Z) :=
  [WSchedule true 10 None; WStart; WWait 10; WFire 0 None; WStop; WStart; WResult 0 (Ok [])].
Theorem C106_restart_refuted : let run h := wrun (B "") C82_rejects (restart_history ++ h) (world_init 0) in
  ~ orderly (B "") C82_rejects restart_history 0 /\
  length (y_due (run [])) = 2%nat /\
  map a_at (y_calls (run [WWait 20; WFire 0 (Some (Ok [])); WFire 0 (Some (Ok []))])) = [10; 30; 30] /\
  snd (wstep (B "") C82_rejects WStop (run [])) = Ok tt /\ map a_at (y_calls (run [WStop; WWait 10; WFire 0 (Some (Ok []))])) = [10; 20].
Proof.
  cbv zeta. split; [|vm_compute; repeat split; reflexivity].
  intros H. set (w := wrun (B "") C82_rejects [WSchedule true 10 None; WStart; WWait 10; WFire 0 None; WStop] (world_init 0)).
  assert (Ht : exists t, y_tasks w !! 0%nat = Some t /\ l_on (t_loop t) = false) by (eexists; vm_compute; split; reflexivity). destruct Ht as (t & Ht & Ho).
  exact (H [WSchedule true 10 None; WStart; WWait 10; WFire 0 None; WStop] [WResult 0 (Ok [])] eq_refl 0%nat t Ht Ho (or_introl eq_refl)).
Qed.
Print Assumptions C106_restart_refuted.
