(** C82, C83, C91, C92: report.py.  [sruns] runs a history of the reporting
    service from its start; [iruns] one of the inspector. *)
From Verif Require Import Base Report ReportSpec ReportFacts.

(** C82: the state, the calls made, what was reported and logged, and that no call of
    the service raises *)
Theorem C82_effects : forall V instance (rejects : str -> V -> option exn) h on ws calls reports logged,
  story instance rejects h on ws calls reports logged ->
  sruns instance rejects h svc_init =
    (Svc on (map (fun w => Task w on) ws) calls reports logged, map (fun _ => Ok tt) h).
Proof. exact @story_ok. Qed.
Print Assumptions C82_effects.
Theorem C82_every_history : forall V instance (rejects : str -> V -> option exn) h, sound false [] h ->
  exists on ws calls reports logged, story instance rejects h on ws calls reports logged.
Proof. intros V instance rejects h. exact (story_total instance rejects h [] false [] [] [] [] (st_none _ _)). Qed.
Print Assumptions C82_every_history.
(** but a function scheduled without a report function that raises stops being
    called, stopService raises, and the tasks after it keep running *)
Theorem C82_bare_failure_refuted : forall V instance (rejects : str -> V -> option exn) h ws c r l i e,
  story instance rejects h true ws c r l -> nth_error ws i = Some false ->
  sruns instance rejects (h ++ [ETick i (Exn e); EStop]) svc_init =
    (Svc true (map (fun w => Task w false) (firstn i ws) ++ Task false false :: map (fun w => Task w true) (skipn (S i) ws))
         (c ++ [i]) r l,
     map (fun _ => Ok tt) h ++ [Ok tt; Exn AssertionError]).
Proof. exact @bare_failure. Qed.
Print Assumptions C82_bare_failure_refuted.
(** starting a service that runs, or stopping one that does not, raises and changes nothing *)
Theorem C82_wrong_state : forall V instance (rejects : str -> V -> option exn) h on w ws c r l,
  story instance rejects h on (w :: ws) c r l ->
  sruns instance rejects (h ++ [if on then EStart else EStop]) svc_init =
    (Svc on (map (fun w => Task w on) (w :: ws)) c r l, map (fun _ => Ok tt) h ++ [Exn AssertionError]).
Proof. exact @wrong_state. Qed.
Print Assumptions C82_wrong_state.
Definition C82_history : list (sevent Z) :=
  [ESchedule true (Ok [(B "a", 1)]); EStart; ETick 0 (Ok [(B "a", 2); (B "bad", 0); (B "b", 3)]); ETick 0 (Exn OtherError);
   ESchedule true (Ok [(B "c", 4)]); ETick 0 (Ok [(B "a", 5)]); EStop; ETick 0 (Ok [(B "a", 6)]); ETick 1 (Ok [])].
Definition C82_rejects (n : str) (v : Z) : option exn := if v =? 0 then Some ValueError else None.
Example C82_case : sound false [] C82_history /\
  sruns (B "host") C82_rejects C82_history svc_init =
    (Svc false [Task true false; Task true false] [0; 0; 1; 0]%nat
         [(B "host.a", 2); (B "host.c", 4); (B "host.a", 5)] [ValueError; OtherError], map (fun _ => Ok tt) C82_history).
Proof.
  split; [|vm_compute; reflexivity]. cbn. repeat split; try (intros; discriminate); auto.
Qed.
Example C82_bare_case :
  fst (sruns (B "") C82_rejects ([ESchedule false (Ok []); ESchedule true (Ok []); EStart] ++ [ETick 0 (Exn OtherError); EStop]) svc_init) =
  Svc true [Task false false; Task true true] [0%nat] [] [].
Proof. vm_compute. reflexivity. Qed.

Example C82_wrong_state_case : exists c r l,
  story (B "host") C82_rejects [ESchedule true (Ok [(B "a", 1)]); EStart; ETick 0 (Ok [(B "a", 2)])] true [true] c r l /\ c = [0%nat] /\ length r = 1%nat.
Proof.
  destruct (C82_every_history Z (B "host") C82_rejects [ESchedule true (Ok [(B "a", 1)]); EStart; ETick 0 (Ok [(B "a", 2)])]) as (on & ws & c & r & l & S).
  - cbn. repeat split; try (intros; discriminate); auto.
  - pose proof (C82_effects _ _ _ _ _ _ _ _ _ S) as E. vm_compute in E. injection E as <- E1 <- <- <-. destruct ws as [|w [|]]; try discriminate. injection E1 as <-. eexists _, _, _. split; [exact S|]. split; reflexivity.
Qed.

(** C83 *)
Theorem C83_never_fails : forall T (minus : T -> T -> T) h, i_phase (iruns minus h) <> PFail.
Proof. exact @inspector_never_fails. Qed.
Print Assumptions C83_never_fails.
Theorem C83_not_newer : forall T (minus : T -> T -> T) h id t t', In (id, t, t') (i_queue (iruns minus h)) ->
  0 <= id <= i_msg (iruns minus h) /\ (i_phase (iruns minus h) <> PSleep -> id < i_msg (iruns minus h)).
Proof. exact @answers_not_newer. Qed.
Print Assumptions C83_not_newer.
(** reports are numbered 0, 1, 2, ...; each end of a sleep reports once, nothing else does *)
Theorem C83_numbered : forall T (minus : T -> T -> T) h,
  map (fun o => fst (fst o)) (i_out (iruns minus h)) = map Z.of_nat (seq 0 (length (i_out (iruns minus h)))).
Proof. exact @reports_numbered. Qed.
Print Assumptions C83_numbered.
Theorem C83_one_report : forall T (minus : T -> T -> T) h t, i_phase (iruns minus h) = PSleep ->
  exists v d, i_out (iruns minus (h ++ [IWake t])) = i_out (iruns minus h) ++ [(Z.of_nat (length (i_out (iruns minus h))), v, d)] /\
              i_phase (iruns minus (h ++ [IWake t])) = PTest.
Proof. exact @wake_reports. Qed.
Print Assumptions C83_one_report.
Theorem C83_no_other_report : forall T (minus : T -> T -> T) h e, (forall t, e <> IWake t) ->
  i_out (iruns minus (h ++ [e])) = i_out (iruns minus h).
Proof. exact @only_wakes_report. Qed.
Print Assumptions C83_no_other_report.
(** with a reactor that runs tasks in order: each delay and verdict *)
Theorem C83_delays : forall T (minus : T -> T -> T) h p a n base s out, ledger minus h p a n base s out ->
  i_out (iruns minus h) = out /\ length p = (length out + if s then 1 else 0)%nat.
Proof. intros T minus h p a n base s out H. apply ledger_ok in H as (_ & H & ->). split; [reflexivity|exact H]. Qed.
Print Assumptions C83_delays.
(** start, a probe at 0 not answered until 3, one at 3 while the first is answered
    at 4, a third at 6 *)
Definition C83_history : list ievent :=
  [IStart 0; IProbe 0; IWake 3; IProbe 3; IAnswer 0 4; IWake 6; IProbe 6; IWake 9].
Definition C83_reports : list (Z * verdict * Z) := [(0, VUnresponsive, 3); (1, VLate 0, 4); (2, VUnresponsive, 3)].
Example C83_case : ledger Z.sub C83_history [0; 3; 6] [4] 1 6 false C83_reports /\ i_out (iruns Z.sub C83_history) = C83_reports.
Proof.
  split; [|vm_compute; reflexivity].
  pose proof (lg_start Z.sub 0) as H. apply (lg_probe Z.sub) with (t := 0) in H.
  apply (lg_silent Z.sub _ _ []) with (t := 3) in H. apply (lg_probe Z.sub) with (t := 3) in H.
  apply (lg_answer Z.sub) with (t := 4) in H; [|cbn; lia].
  apply (lg_answered Z.sub) with (t := 6) (sent := 0) (answered := 4) in H; [|reflexivity|reflexivity].
  apply (lg_probe Z.sub) with (t := 6) in H. apply (lg_silent Z.sub _ _ [4]) with (t := 9) in H. exact H.
Qed.

(** C91: the delay given for an unresponsive reactor is not the age of the oldest
    probe without an answer *)
Theorem C91_delay_too_short_refuted : exists h w d m id sent,
  last (i_out (iruns Z.sub (h ++ [IWake w]))) = Some (m, VUnresponsive, d) /\
  In (id, sent) (i_pending (iruns Z.sub (h ++ [IWake w]))) /\ d < w - sent.
Proof.
  exists (removelast C83_history), 9, 3, 2, 1, 3. vm_compute. repeat split; auto.
Qed.
Print Assumptions C91_delay_too_short_refuted.

(** C92: after stop at most the report of the probe being slept on follows,
    whatever is called later, start included *)
Theorem C92_stop_is_final : forall T (minus : T -> T -> T) h h',
  (length (i_out (iruns minus (h ++ IStop :: h'))) <= length (i_out (iruns minus h)) + 1)%nat /\
  (i_phase (iruns minus h) <> PSleep -> i_out (iruns minus (h ++ IStop :: h')) = i_out (iruns minus h)).
Proof. exact @stop_is_final. Qed.
Print Assumptions C92_stop_is_final.
Example C92_case : i_phase (iruns Z.sub C83_history) <> PSleep /\
  i_out (iruns Z.sub (C83_history ++ [IStop; IProbe 9; IStart 10; IProbe 10; IWake 13])) = C83_reports /\
  i_out (iruns Z.sub (C83_history ++ [IProbe 9; IStop; IWake 12; IStart 13; IProbe 13; IWake 16])) = C83_reports ++ [(3, VUnresponsive, 6)].
Proof. split; [vm_compute; discriminate|]. split; vm_compute; reflexivity. Qed.
