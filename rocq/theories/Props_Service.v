(** C31, C74-C78: service.py and the status page of httpinfo.py. *)
From Verif Require Import Base StrFacts Num NumFacts Env Stats Metrics Gen Processor Configurable LineSpec ProcSpec ProcFacts ReceiveFacts
  Sched SchedFacts FlushSpec FlushDerived CSched ConfFacts LogFacts RouterSpec ProcessSpec ProcessFacts Service ServiceSpec ServiceFacts SendFacts StatusFacts Demo.
From Coq Require Import Sorting.Sorted QArith Qcanon.
Open Scope Z_scope.

(** C31: everything a service with the chosen processor emits over a schedule *)
Definition service_out {NN : Num.Num} E plugins (c : chosen) (es : list event) : list dp :=
  match c with
  | Compliant => y_out (sys_run E plugins es sys_init)
  | Conf mp ip => g_out (gsys_run (creceive E mp ip plugins) (cflush E mp ip plugins) es (gsys_init cp_init))
  | Logging mp ip => g_out (gsys_run (lreceive E mp ip plugins) (lp_flush E (cp_cls E mp ip plugins)) es (gsys_init cp_init))
  end.
(** without statsd-compliance dump-mode changes nothing that is sent *)
Theorem C31_dump_mode_transparent : forall (NN : Num.Num) E plugins prefix instance node c d es,
  snd (choose_processor prefix instance node 0 0 false) = Ok c -> snd (choose_processor prefix instance node 1 0 false) = Ok d ->
  service_out E plugins d es = service_out E plugins c es.
Proof.
  intros NN E plugins prefix instance node c d es Hc Hd. cbn in Hc, Hd. inversion Hc. inversion Hd. cbn [service_out].
  apply transparent.
Qed.
Print Assumptions C31_dump_mode_transparent.
(** with it, the same lines give other names and, for counters, other values: two
    increments are sent as their sum, or as the last one *)
Definition sent_value {NN : Num.Num} (out : list dp) (n : str) (v : pval -> bool) : bool :=
  existsb (fun d => str_eqb (dp_name d) n && v (dp_value d)) out.
Definition is_number (z : Z) (v : pval (NN := demo_num)) : bool :=
  match v with VI y => y =? z | VF x => xeqb x (Fin (QcZ z)) end.
Definition C31_history : list event :=
  [Recv (B "x:1|c"); Recv (B "x:2|c"); Start 10000 90; Resume 0; Resume 0; Resume 0].
Theorem C31_dump_mode_compliant_refuted : exists es n n' v w,
  let c := snd (choose_processor None None (B "host") 0 1 false) in
  let d := snd (choose_processor None None (B "host") 1 1 false) in
  c = Ok Compliant /\ d = Ok (Logging [] []) /\ v <> w /\
  sent_value (service_out demo_env [] Compliant es) n (is_number v) = true /\
  sent_value (service_out demo_env [] (Logging [] []) es) n' (is_number w) = true /\
  sent_value (service_out demo_env [] Compliant es) n' (fun _ => true) = false /\
  sent_value (service_out demo_env [] (Logging [] []) es) n (fun _ => true) = false.
Proof.
  exists C31_history, (B "stats_counts.x"), (B "x.count"), 3, 2. repeat split; try (vm_compute; reflexivity). discriminate.
Qed.
Print Assumptions C31_dump_mode_compliant_refuted.
(** and a second such service in one process cannot be made *)
Theorem C31_second_service_refuted : forall prefix instance node dump compliance b b' c prefix' instance' node' dump' compliance',
  dump <> 0 -> dump' <> 0 -> choose_processor prefix instance node dump compliance b = (b', Ok c) ->
  snd (choose_processor prefix' instance' node' dump' compliance' b') = Exn AssertionError.
Proof.
  intros prefix instance node dump compliance b b' c prefix' instance' node' dump' compliance' H H' Hc. unfold choose_processor in *.
  destruct (dump =? 0) eqn:E; [lia|]. destruct (dump' =? 0) eqn:E'; [lia|]. destruct b; cbn [andb negb] in *; [discriminate|].
  injection Hc as <- _. reflexivity.
Qed.
Print Assumptions C31_second_service_refuted.
Example C31_second_case : choose_processor (Some (B "p")) (Some []) (B "host") 2 0 false = (true, Ok (Logging (B "p") (B "p.host."))).
Proof. reflexivity. Qed.

(** C74.  [parse_options files args] is what parseOptions leaves; [files path] the
    sections of the configuration file at [path]. *)
Theorem C74_accepted : forall files args, well_formed files ->
  ((exists o, parse_options files args = Ok o) <->
   Forall (fun a => exists n, names (fst a) n) args /\
   (forall path, config_path args (Some path) -> exists items, In (B "statsd", items) (files path)) /\
   forall n c d k, In (n, c, d, k) documented ->
     exists vs, supplied files args n vs /\ Forall (fun v => exists x, reads_as k v x) vs).
Proof.
  intros files args Hw. rewrite (parse_accepts files args Hw).
  split; (intros (H1 & H2 & H3); split; [exact H1|split; [exact H2|]]); intros n c d k Hi; apply table_documented in Hi; exact (H3 n c d k Hi).
Qed.
Print Assumptions C74_accepted.
Theorem C74_value : forall files args o n c d k vs, well_formed files -> parse_options files args = Ok o ->
  In (n, c, d, k) documented -> supplied files args n vs ->
  exists xs, Forall2 (reads_as k) vs xs /\ o !! n = Some (settled k d xs).
Proof.
  exact (fun files args o n c d k vs Hw Hp Hi =>
    option_settled files args o n c d k vs Hw Hp (proj2 (table_documented (n, c, d, k)) Hi)).
Qed.
Print Assumptions C74_value.
Theorem C74_plugin_sections : forall files args o path n items, well_formed files -> parse_options files args = Ok o ->
  config_path args (Some path) -> In (n, items) (files path) -> B "plugin_" `prefix_of` n -> o !! n = Some (OPairs items).
Proof. exact plugin_sections. Qed.
Print Assumptions C74_plugin_sections.
Lemma parsed (files : str -> list section) (args : list (flag * str)) (P : options -> Prop) :
  match parse_options files args with Ok o => P o | Exn _ => False end -> exists o, parse_options files args = Ok o /\ P o.
Proof. destruct (parse_options files args) as [o|e]; [|contradiction]. eauto. Qed.
(** so a value given with a short option loses to the file *)
Theorem C74_short_option_wins_refuted : exists files args o,
  well_formed files /\ In (FShort "l", B "9000") args /\ parse_options files args = Ok o /\ o !! B "listen-port" = Some (OI 8000).
Proof.
  set (files := fun _ : str => [(B "statsd", [(B "listen-port", B "8000")])]).
  set (args := [(FShort "l", B "9000"); (FLong (B "config"), B "f")]).
  destruct (parsed files args (fun o => o !! B "listen-port" = Some (OI 8000))) as (o & E & H); [vm_compute; reflexivity|].
  exists files, args, o. split; [intros p; apply (bool_decide_eq_true_1 _); vm_compute; reflexivity|]. split; [left; reflexivity|].
  split; [exact E|exact H].
Qed.
Print Assumptions C74_short_option_wins_refuted.
Definition C74_files (p : str) : list section :=
  [(B "carbon-cache-b", [(B "carbon-cache-host", B "h2"); (B "carbon-cache-port", B "2")]);
   (B "statsd", [(B "listen-port", B "8000"); (B "flush-interval", B " 10 "); (B "unknown", B "x")]);
   (B "plugin_sli", [(B "rules", B "r")]);
   (B "carbon-cache-a", [(B "carbon-cache-host", B "h1"); (B "carbon-cache-port", B "1"); (B "listen-port", B "9000")])].
Definition C74_args : list (flag * str) :=
  [(FShort "h", B "h0"); (FLong (B "carbon-cache-port"), B "7"); (FShort "c", B "f"); (FLong (B "prefix"), B "p")].
Example C74_case : well_formed C74_files /\
  exists o, parse_options C74_files C74_args = Ok o /\ o !! B "listen-port" = Some (OI 9000) /\ o !! B "flush-interval" = Some (OI 10) /\
    o !! B "carbon-cache-host" = Some (OL [OS (B "h0"); OS (B "h1"); OS (B "h2")]) /\ o !! B "carbon-cache-port" = Some (OL [OI 7]) /\
    o !! B "plugin_sli" = Some (OPairs [(B "rules", B "r")]) /\ o !! B "prefix" = Some (OS (B "p")).
Proof.
  split; [intros p; apply (bool_decide_eq_true_1 _); vm_compute; reflexivity|].
  apply parsed. vm_compute. repeat split.
Qed.
Example C74_refused_case : parse_options C74_files [(FShort "c", B "f"); (FLong (B "listen-port"), B "no")] = Exn UsageError /\
  parse_options (fun _ => [(B "other", [])]) [(FLong (B "config"), B "f")] = Exn NoSectionError.
Proof. split; vm_compute; reflexivity. Qed.

(** C75 *)
Theorem C75_position_by_position : forall hosts ports names hosts' ports' names' i h p n,
  or_one hosts hosts' (B "127.0.0.1") -> or_one ports ports' 2004 -> or_one names names' None ->
  (nth_error (destinations hosts ports names) i = Some (h, p, n) <->
   nth_error hosts' i = Some h /\ nth_error ports' i = Some p /\ nth_error names' i = Some n).
Proof. exact destinations_at. Qed.
Print Assumptions C75_position_by_position.
(** whatever hosts and ports are given, without names there is a single destination *)
Theorem C75_all_connected_refuted : forall hosts ports, exists h p, destinations hosts ports [] = [(h, p, None)].
Proof. exact destinations_unnamed. Qed.
Print Assumptions C75_all_connected_refuted.
Example C75_case : destinations [B "a"; B "b"] [1; 2] [Some (B "x")] = [(B "a", 1, Some (B "x"))] /\
  destinations [B "a"; B "b"] [1; 2] [Some (B "x"); None] = [(B "a", 1, Some (B "x")); (B "b", 2, None)] /\
  destinations [] [] [] = [(B "127.0.0.1", 2004, None)].
Proof. repeat split. Qed.

(** C76 *)
Definition destination_stats {V} (items : list (str * V)) : list (str * V) :=
  map (fun i => (map (fun c => if decide (c = ":"%char) then "_"%char else c) (fst i), snd i))
      (filter (fun i => B "destinations" `prefix_of` fst i) items).
Theorem C76_reported_and_reset : forall V (zero : V) items, NoDup (map fst items) ->
  let '(current, stats) := report_carbon zero items in
  dict_of (destination_stats items) current /\
  (forall k, is_Some (stats !! k) <-> In k (map fst items)) /\ (forall k v, stats !! k = Some v -> v = zero).
Proof.
  intros V zero items Hn. pose proof (report_carbon_ok zero items Hn) as H. destruct (report_carbon zero items) as [current stats].
  assert (E : destination_stats items = concat (map dest_item items)); [|rewrite E; exact H].
  clear. induction items as [|[k v] items IH]; [reflexivity|]. unfold destination_stats. cbn [map concat]. unfold dest_item at 1. cbn [fst snd].
  destruct (starts_with (B "destinations") k) eqn:E.
  - rewrite filter_cons_True by (apply starts_prefix; exact E). cbn [map app]. f_equal; [|exact IH]. f_equal. cbn [fst].
    unfold replace_char. apply map_ext. intros c. destruct (eqc ":" c) eqn:Ec.
    + apply eqc_eq in Ec. rewrite decide_True by congruence. reflexivity.
    + rewrite decide_False; [reflexivity|]. intros ->. apply eqc_neq in Ec. congruence.
  - rewrite filter_cons_False; [exact IH|]. cbn [fst]. intros Hp. apply starts_prefix in Hp. congruence.
Qed.
Print Assumptions C76_reported_and_reset.
Example C76_case :
  let '(current, stats) := report_carbon 0 [(B "x", 5); (B "destinations.h:1.sent", 7); (B "destinations.h_1.sent", 8)] in
  map_to_list current = [(B "destinations.h_1.sent", 8)] /\ size stats = 3%nat.
Proof. vm_compute. split; reflexivity. Qed.

(** C77 *)
Theorem C77_undisturbed : forall (NN : Num.Num) S (receive : str -> S -> S) (flush : gen S) y n s' l o,
  f_live y = [] -> grun flush (f_st y) = (s', l, o) -> (length l < n)%nat ->
  fold_left (fstep flush receive (fun _ => None)) (FFlush :: repeat (FStep 0) n) y =
  FSys s' [] (Datatypes.S (f_count y)) (f_sent y ++ map (fun d => (f_count y, as_sent d)) l) (f_ended y ++ [(f_count y, o)]).
Proof. exact @undisturbed. Qed.
Print Assumptions C77_undisturbed.
(** in any schedule carbon is sent exactly what the flushes of the processor emit *)
Theorem C77_any_schedule : forall (NN : Num.Num) S (receive : str -> S -> S) (fl : Z -> Z -> gen S) i p h s,
  let y := fruns (fl i p) receive (fun _ => None) h s in let z := gsys_run receive fl (map (ev i p) h) (gsys_init s) in
  f_st y = g_st z /\ map snd (f_sent y) = map as_sent (g_out z) /\ failures (f_ended y) = g_exn z.
Proof. exact @sent_of_schedule. Qed.
Print Assumptions C77_any_schedule.
(** when sending one datapoint raises, the flush sends nothing more, ever *)
Theorem C77_refusal_loses_the_rest_refuted : forall (NN : Num.Num) S (receive : str -> S -> S) (flush : gen S) refuses h s i k g st d g' e h',
  let y := fold_left (fstep flush receive refuses) h (FSys s [] 0 [] []) in
  f_live y !! i = Some (k, g) -> gnext g (f_st y) = (st, Yielded d g') -> refuses d = Some e ->
  let y' := fold_left (fstep flush receive refuses) h' (fstep flush receive refuses y (FStep i)) in
  of_flush k y' = of_flush k y /\ In (k, Some e) (f_ended (fstep flush receive refuses y (FStep i))).
Proof. exact @refusal. Qed.
Print Assumptions C77_refusal_loses_the_rest_refuted.
Definition C77_flush : gen (NN := demo_num) nat :=
  GAct (fun n => (S n, GEmit [DP (B "a") (VI 1) 5; DP (B "b") (VI 2) 5] (GEmit [DP (B "c") (VI 3) 5] GRet))).
Definition C77_refuses (d : dp (NN := demo_num)) : option exn := if str_eqb (dp_name d) (B "b") then Some OtherError else None.
Example C77_case : f_sent (fruns C77_flush (fun _ n => n) (fun _ => None) [FFlush; FStep 0; FFlush; FStep 1; FStep 0; FStep 0] 0%nat) =
  [(0%nat, (B "a", (5, VI 1))); (1%nat, (B "a", (5, VI 1))); (0%nat, (B "b", (5, VI 2))); (0%nat, (B "c", (5, VI 3)))].
Proof. reflexivity. Qed.
Example C77_refusal_case :
  let y := fruns C77_flush (fun _ n => n) C77_refuses [FFlush; FStep 0] 0%nat in
  (exists g st d g', f_live y !! 0%nat = Some (0%nat, g) /\ gnext g (f_st y) = (st, Yielded d g') /\ C77_refuses d = Some OtherError) /\
  f_sent (fruns C77_flush (fun _ n => n) C77_refuses [FFlush; FStep 0; FStep 0; FStep 0; FStep 0] 0%nat) = [(0%nat, (B "a", (5, VI 1)))].
Proof. split; [|reflexivity]. cbn. repeat eexists. Qed.

(** C78: the page says ERROR exactly when the durations of the last flush, added up in
    milliseconds, exceed 700 times the interval in milliseconds *)
Theorem C78_error_iff : forall sq (E : env (NN := XQ sq)) plugins i p (s s' : mst) l, reachable E plugins s -> 1000 <= i ->
  grun (flush E (mp_cls E plugins) i p) s = (s', l, None) ->
  status_error i (p_lpd s') (p_lfd s') = xltb (Fin (QcZ (700 * i))) (xsum (omap reported_ms l)).
Proof. exact status_exact. Qed.
Print Assumptions C78_error_iff.
(** so a service whose flush takes more than 50 times its interval is reported as healthy *)
Definition C78_env : env (NN := demo_num) :=
  @Env demo_num (fun n => Fin (QcZ (100 * Z.of_nat n))) (fun n => 1 + Z.of_nat n)
    (fun _ c => N_of_ascii c) (fun _ l => l) (fun _ _ => Permutation_refl _).
Theorem C78_overrun_noticed_refuted : exists s s' l, reachable C78_env [] s /\
  grun (flush C78_env (mp_cls C78_env []) 10000 90) s = (s', l, None) /\
  xltb (Fin (QcZ (50 * 10000))) (xsum (omap (reported_ms (NN := demo_num)) l)) = true /\ status_error 10000 (p_lpd s') (p_lfd s') = false.
Proof.
  set (es := [Recv (B "a:3|c")]). set (s := y_st (sys_run C78_env [] es sys_init)).
  destruct (grun (flush C78_env (mp_cls C78_env []) 10000 90) s) as [[s' l] o] eqn:E. exists s, s', l.
  assert (Hr : reachable C78_env [] s) by (exists es; split; [repeat constructor|reflexivity]).
  assert (o = None) as ->.
  { change o with (snd (s', l, o)). rewrite <- E. vm_compute. reflexivity. }
  split; [exact Hr|]. split; [exact E|].
  pose proof (C78_error_iff (fun q => q) C78_env [] 10000 90 s s' l Hr ltac:(discriminate) E) as H.
  split; [|etransitivity; [exact H|]]; clear H.
  - change l with (snd (fst (s', l, @None exn))). rewrite <- E. vm_compute. reflexivity.
  - change l with (snd (fst (s', l, @None exn))). rewrite <- E. vm_compute. reflexivity.
Qed.
Print Assumptions C78_overrun_noticed_refuted.
